(** The real numbers that floating-point results stand for.  Every lemma here
    is about the operations of the standard library's [SpecFloat] that
    [FloatModel] uses; Flocq's [BinarySingleNaN] supplies their correctness. *)
From Verif Require Import GoBase FloatModel.
From Coq Require Import SpecFloat Reals Psatz.
From Flocq Require Import Core BinarySingleNaN Relative Plus_error Div_sqrt_error.
Local Open Scope R_scope.

(** The number a finite float denotes (0 for infinities and NaN). *)
Definition fval (x : spec_float) : R := SF2R radix2 x.
(** [x] is a finite value of the format with [prec] bits and exponents below [emax]. *)
Definition ffin (prec emax : Z) (x : spec_float) : Prop :=
  valid_binary prec emax x = true /\ is_finite_SF x = true.
(** Rounding to nearest, ties to even. *)
Definition frnd (prec emax : Z) (r : R) : R :=
  round radix2 (SpecFloat.fexp prec emax) ZnearestE r.

Section fmt.
  Context (prec emax : Z) (Hprec : Prec_gt_0 prec) (Hmax : Prec_lt_emax prec emax).
  Notation bf := (binary_float prec emax).

  Lemma rne_equiv s m l : round_nearest_even m l = choice_mode mode_NE s m l.
  Proof.
    case l; [reflexivity|intro c]. case c; [|reflexivity..].
    now simpl; unfold Round.cond_incr; case Z.even.
  Qed.

  Lemma round_aux_equiv sx mx ex lx :
    SpecFloat.binary_round_aux prec emax sx mx ex lx
    = BinarySingleNaN.binary_round_aux prec emax mode_NE sx mx ex lx.
  Proof.
    unfold SpecFloat.binary_round_aux, BinarySingleNaN.binary_round_aux.
    set (mrse' := shr_fexp _ _ _ _ _). case mrse'; intros mrs' e'; simpl.
    now rewrite (rne_equiv sx).
  Qed.

  Lemma round_equiv s m e :
    SpecFloat.binary_round prec emax s m e = BinarySingleNaN.binary_round prec emax mode_NE s m e.
  Proof.
    unfold SpecFloat.binary_round, BinarySingleNaN.binary_round, shl_align_fexp.
    set (mez := shl_align _ _ _); case mez as [mz ez]. apply round_aux_equiv.
  Qed.

  Lemma normalize_equiv m e szero :
    SpecFloat.binary_normalize prec emax m e szero
    = B2SF (BinarySingleNaN.binary_normalize prec emax Hprec Hmax mode_NE m e szero).
  Proof.
    case m as [|p|p]; [now simpl|..]; simpl; rewrite B2SF_SF2B; apply round_equiv.
  Qed.

  Lemma mul_equiv (x y : bf) :
    SFmul prec emax (B2SF x) (B2SF y) = B2SF (Bmult mode_NE x y).
  Proof.
    case x as [sx|sx| |sx mx ex Bx]; case y as [sy|sy| |sy my ey By]; [now trivial..|].
    simpl. rewrite B2SF_SF2B. apply round_aux_equiv.
  Qed.

  Lemma add_equiv (x y : bf) :
    SFadd prec emax (B2SF x) (B2SF y) = B2SF (Bplus mode_NE x y).
  Proof.
    case x as [sx|sx| |sx mx ex Bx]; case y as [sy|sy| |sy my ey By];
      [now (trivial || simpl; case Bool.eqb)..|].
    apply normalize_equiv.
  Qed.

  Lemma sub_equiv (x y : bf) :
    SFsub prec emax (B2SF x) (B2SF y) = B2SF (Bminus mode_NE x y).
  Proof.
    case x as [sx|sx| |sx mx ex Bx]; case y as [sy|sy| |sy my ey By];
      [now (trivial || simpl; case Bool.eqb)..|].
    simpl. unfold Zminus. rewrite <- cond_Zopp_negb. apply normalize_equiv.
  Qed.

  Lemma div_equiv (x y : bf) :
    SFdiv prec emax (B2SF x) (B2SF y) = B2SF (Bdiv mode_NE x y).
  Proof.
    case x as [sx|sx| |sx mx ex Bx]; case y as [sy|sy| |sy my ey By];
      [now (trivial || simpl; case Bool.eqb)..|].
    simpl. rewrite B2SF_SF2B. set (melz := SFdiv_core_binary _ _ _ _ _ _).
    case melz as [[mz ez] lz]. apply round_aux_equiv.
  Qed.

  Lemma sqrt_equiv (x : bf) : SFsqrt prec emax (B2SF x) = B2SF (Bsqrt mode_NE x).
  Proof.
    case x as [sx|sx| |sx mx ex Bx]; [now (trivial || case sx)..|].
    case sx; [reflexivity|]. simpl. rewrite B2SF_SF2B.
    set (melz := SFsqrt_core_binary _ _ _ _). case melz as [[mz ez] lz]. apply round_aux_equiv.
  Qed.

  Lemma ffin_B x : ffin prec emax x ->
    exists b : bf, x = B2SF b /\ is_finite b = true /\ fval x = B2R b.
  Proof.
    intros [Hv Hf]. exists (SF2B x Hv). rewrite B2SF_SF2B, is_finite_SF2B.
    split; [done|]. split; [done|]. unfold fval. by rewrite B2R_SF2B.
  Qed.

  Lemma B_ffin (b : bf) : is_finite b = true -> ffin prec emax (B2SF b) /\ fval (B2SF b) = B2R b.
  Proof.
    intros Hf. split; [split|].
    - apply valid_binary_B2SF.
    - by rewrite is_finite_SF_B2SF.
    - unfold fval. by rewrite SF2R_B2SF.
  Qed.

  Lemma ffin_format x : ffin prec emax x ->
    generic_format radix2 (SpecFloat.fexp prec emax) (fval x).
  Proof. intros (b & _ & _ & ->)%ffin_B. apply generic_format_B2R. Qed.

  Lemma SFmul_real x y : ffin prec emax x -> ffin prec emax y ->
    Rabs (frnd prec emax (fval x * fval y)) < bpow radix2 emax ->
    ffin prec emax (SFmul prec emax x y) /\
    fval (SFmul prec emax x y) = frnd prec emax (fval x * fval y).
  Proof.
    intros (bx & -> & Fx & ->)%ffin_B (by_ & -> & Fy & ->)%ffin_B Hlt. rewrite mul_equiv.
    pose proof (Bmult_correct prec emax Hprec Hmax mode_NE bx by_) as H.
    rewrite Rlt_bool_true in H by exact Hlt. destruct H as (H1 & H2 & _).
    destruct (B_ffin (Bmult mode_NE bx by_)) as [Hf Hr]; [by rewrite H2, Fx, Fy|].
    split; [done|]. rewrite Hr. exact H1.
  Qed.

  Lemma SFadd_real x y : ffin prec emax x -> ffin prec emax y ->
    Rabs (frnd prec emax (fval x + fval y)) < bpow radix2 emax ->
    ffin prec emax (SFadd prec emax x y) /\
    fval (SFadd prec emax x y) = frnd prec emax (fval x + fval y).
  Proof.
    intros (bx & -> & Fx & ->)%ffin_B (by_ & -> & Fy & ->)%ffin_B Hlt. rewrite add_equiv.
    pose proof (Bplus_correct prec emax Hprec Hmax mode_NE bx by_ Fx Fy) as H.
    rewrite Rlt_bool_true in H by exact Hlt. destruct H as (H1 & H2 & _).
    destruct (B_ffin (Bplus mode_NE bx by_) H2) as [Hf Hr].
    split; [done|]. rewrite Hr. exact H1.
  Qed.

  Lemma SFsub_real x y : ffin prec emax x -> ffin prec emax y ->
    Rabs (frnd prec emax (fval x - fval y)) < bpow radix2 emax ->
    ffin prec emax (SFsub prec emax x y) /\
    fval (SFsub prec emax x y) = frnd prec emax (fval x - fval y).
  Proof.
    intros (bx & -> & Fx & ->)%ffin_B (by_ & -> & Fy & ->)%ffin_B Hlt. rewrite sub_equiv.
    pose proof (Bminus_correct prec emax Hprec Hmax mode_NE bx by_ Fx Fy) as H.
    rewrite Rlt_bool_true in H by exact Hlt. destruct H as (H1 & H2 & _).
    destruct (B_ffin (Bminus mode_NE bx by_) H2) as [Hf Hr].
    split; [done|]. rewrite Hr. exact H1.
  Qed.

  Lemma SFdiv_real x y : ffin prec emax x -> ffin prec emax y -> fval y <> 0 ->
    Rabs (frnd prec emax (fval x / fval y)) < bpow radix2 emax ->
    ffin prec emax (SFdiv prec emax x y) /\
    fval (SFdiv prec emax x y) = frnd prec emax (fval x / fval y).
  Proof.
    intros (bx & -> & Fx & ->)%ffin_B (by_ & -> & Fy & ->)%ffin_B Hy Hlt. rewrite div_equiv.
    pose proof (Bdiv_correct prec emax Hprec Hmax mode_NE bx by_ Hy) as H.
    rewrite Rlt_bool_true in H by exact Hlt. destruct H as (H1 & H2 & _).
    destruct (B_ffin (Bdiv mode_NE bx by_)) as [Hf Hr]; [by rewrite H2|].
    split; [done|]. rewrite Hr. exact H1.
  Qed.

  Lemma SFsqrt_real x : ffin prec emax x -> 0 <= fval x ->
    ffin prec emax (SFsqrt prec emax x) /\
    fval (SFsqrt prec emax x) = frnd prec emax (sqrt (fval x)).
  Proof.
    intros (bx & -> & Fx & ->)%ffin_B Hx. rewrite sqrt_equiv.
    destruct (Bsqrt_correct prec emax Hprec Hmax mode_NE bx) as (H1 & H2 & _).
    destruct (B_ffin (Bsqrt mode_NE bx)) as [Hf Hr].
    { rewrite H2. destruct bx as [s|s| |s m e B]; try done. destruct s; [|done]. exfalso.
      cbn [B2R] in Hx. assert (F2R (Float radix2 (cond_Zopp true (Zpos m)) e) < 0); [|lra].
      by apply F2R_lt_0. }
    split; [done|]. rewrite Hr. exact H1.
  Qed.

  Lemma normalize_real m e sz :
    Rabs (frnd prec emax (F2R (Float radix2 m e))) < bpow radix2 emax ->
    ffin prec emax (SpecFloat.binary_normalize prec emax m e sz) /\
    fval (SpecFloat.binary_normalize prec emax m e sz) = frnd prec emax (F2R (Float radix2 m e)).
  Proof.
    intros Hlt. rewrite normalize_equiv.
    pose proof (binary_normalize_correct prec emax Hprec Hmax mode_NE m e sz) as H.
    cbn zeta in H. rewrite Rlt_bool_true in H by exact Hlt. destruct H as (H1 & H2 & _).
    destruct (B_ffin _ H2) as [Hf Hr]. split; [done|]. rewrite Hr. exact H1.
  Qed.

  (** Comparison of finite floats is comparison of the numbers. *)
  Lemma SFltb_real x y : ffin prec emax x -> ffin prec emax y ->
    SFltb x y = Rlt_bool (fval x) (fval y).
  Proof.
    intros (bx & -> & Fx & ->)%ffin_B (by_ & -> & Fy & ->)%ffin_B.
    exact (Bltb_correct prec emax bx by_ Fx Fy).
  Qed.
  Lemma SFleb_real x y : ffin prec emax x -> ffin prec emax y ->
    SFleb x y = Rle_bool (fval x) (fval y).
  Proof.
    intros (bx & -> & Fx & ->)%ffin_B (by_ & -> & Fy & ->)%ffin_B.
    exact (Bleb_correct prec emax bx by_ Fx Fy).
  Qed.

  (** A bound that is a power of two in range survives rounding. *)
  Lemma frnd_lt_bpow r e :
    (emin prec emax < e)%Z -> Rabs r <= bpow radix2 e -> Rabs (frnd prec emax r) <= bpow radix2 e.
  Proof.
    intros He Hr. unfold frnd. apply abs_round_le_generic; try apply _.
    - apply generic_format_FLT_bpow; [done|]. unfold emin in *. lia.
    - done.
  Qed.
End fmt.

(** ** Rounding errors *)
(** The unit roundoff 2^-24 of float32, and half its smallest positive value. *)
Definition u32 : R := / 2 * bpow radix2 (-23).
Definition eta32 : R := / 2 * bpow radix2 (-149).

Lemma u32_pos : 0 < u32 < 1.
Proof.
  unfold u32. split; [apply Rmult_lt_0_compat; [lra|apply bpow_gt_0]|].
  assert (bpow radix2 (-23) < bpow radix2 0) by (by apply bpow_lt). simpl bpow in *. lra.
Qed.
Lemma eta32_pos : 0 < eta32.
Proof. unfold eta32. apply Rmult_lt_0_compat; [lra|apply bpow_gt_0]. Qed.

Global Instance prec24 : Prec_gt_0 24 := eq_refl.
Global Instance prec24_emax : Prec_lt_emax 24 128 := eq_refl.
Global Instance prec53 : Prec_gt_0 53 := eq_refl.
Global Instance prec53_emax : Prec_lt_emax 53 1024 := eq_refl.

Notation fin32 := (ffin 24 128).
Notation fin64 := (ffin 53 1024).
Notation rnd32 := (frnd 24 128).
Notation rnd64 := (frnd 53 1024).

Lemma rnd32_ok r : Rabs r <= bpow radix2 127 -> Rabs (rnd32 r) < bpow radix2 128.
Proof.
  intros H. apply (frnd_lt_bpow 24 128 _ r 127) in H; [|done].
  eapply Rle_lt_trans; [exact H|]. by apply bpow_lt.
Qed.

Lemma rnd32_mul_err r : exists eps eta, Rabs eps <= u32 /\ Rabs eta <= eta32 /\
  rnd32 r = r * (1 + eps) + eta.
Proof.
  destruct (error_N_FLT radix2 (-149) 24 eq_refl (fun x => negb (Z.even x)) r)
    as (eps & eta & H1 & H2 & _ & H3).
  exists eps, eta. done.
Qed.

Lemma rnd32_add_err x y : fin32 x -> fin32 y -> exists eps, Rabs eps <= u32 /\
  rnd32 (fval x + fval y) = (fval x + fval y) * (1 + eps).
Proof.
  intros Hx%ffin_format Hy%ffin_format; try apply _.
  destruct (FLT_plus_error_N_ex radix2 (-149) 24 (fun x => negb (Z.even x))
              (fval x) (fval y) Hx Hy) as (eps & H1 & H2).
  exists eps. split; [|exact H2].
  change (u_ro radix2 24) with u32 in H1. pose proof u32_pos.
  assert (u32 / (1 + u32) <= u32); [|lra].
  apply (Rmult_le_reg_r (1 + u32)); [lra|]. unfold Rdiv. rewrite Rmult_assoc, Rinv_l by lra. nra.
Qed.

Lemma SFopp_fin p e x : ffin p e x -> ffin p e (SFopp x) /\ fval (SFopp x) = - fval x.
Proof.
  intros [Hv Hf]. destruct x as [s|s| |s m ex]; try done.
  - split; [done|]. unfold fval. simpl. lra.
  - split; [by split|]. unfold fval. simpl. rewrite <- F2R_Zopp.
    by rewrite cond_Zopp_negb.
Qed.

Lemma rnd32_sub_err x y : fin32 x -> fin32 y -> exists eps, Rabs eps <= u32 /\
  rnd32 (fval x - fval y) = (fval x - fval y) * (1 + eps).
Proof.
  intros Hx Hy. destruct (SFopp_fin _ _ y Hy) as [Hy' Hv].
  destruct (rnd32_add_err x (SFopp y) Hx Hy') as (eps & H1 & H2).
  rewrite Hv in H2. exists eps. done.
Qed.
Lemma rnd32_nonneg r : 0 <= r -> 0 <= rnd32 r.
Proof.
  intros H. unfold frnd. rewrite <- (round_0 radix2 (fexp 24 128) ZnearestE).
  apply round_le; [by apply FLT_exp_valid|apply _|done].
Qed.

Lemma eps_lo u e : Rabs e <= u -> 1 - u <= 1 + e <= 1 + u.
Proof. intros H%Rabs_le_inv. lra. Qed.

(** float32 subtraction, then the square, then the sum: one step of the loop. *)
Lemma fsub_step x y : fin32 x -> fin32 y -> Rabs (fval x - fval y) <= bpow radix2 64 ->
  fin32 (fsub x y) /\
  exists c, 1 - u32 <= c <= 1 + u32 /\ fval (fsub x y) = (fval x - fval y) * c.
Proof.
  intros Hx Hy Hb. destruct (SFsub_real 24 128 _ _ x y Hx Hy) as [Hf Hr].
  { apply rnd32_ok. eapply Rle_trans; [exact Hb|]. by apply bpow_le. }
  split; [exact Hf|]. destruct (rnd32_sub_err x y Hx Hy) as (e & He%eps_lo & Hv).
  exists (1 + e). split; [exact He|]. unfold fsub. by rewrite Hr, Hv.
Qed.

Lemma fmul_step x y : fin32 x -> fin32 y -> Rabs (fval x * fval y) <= bpow radix2 127 ->
  fin32 (fmul x y) /\ fval (fmul x y) = rnd32 (fval x * fval y) /\
  exists c h, 1 - u32 <= c <= 1 + u32 /\ Rabs h <= eta32 /\
    fval (fmul x y) = fval x * fval y * c + h.
Proof.
  intros Hx Hy Hb. destruct (SFmul_real 24 128 _ _ x y Hx Hy) as [Hf Hr].
  { by apply rnd32_ok. }
  split; [exact Hf|]. split; [exact Hr|].
  destruct (rnd32_mul_err (fval x * fval y)) as (e & h & He%eps_lo & Hh & Hv).
  exists (1 + e), h. split; [exact He|]. split; [exact Hh|]. unfold fmul. by rewrite Hr, Hv.
Qed.

Lemma fadd_step x y : fin32 x -> fin32 y -> Rabs (fval x + fval y) <= bpow radix2 127 ->
  fin32 (fadd x y) /\
  exists c, 1 - u32 <= c <= 1 + u32 /\ fval (fadd x y) = (fval x + fval y) * c.
Proof.
  intros Hx Hy Hb. destruct (SFadd_real 24 128 _ _ x y Hx Hy) as [Hf Hr].
  { by apply rnd32_ok. }
  split; [exact Hf|]. destruct (rnd32_add_err x y Hx Hy) as (e & He%eps_lo & Hv).
  exists (1 + e). split; [exact He|]. unfold fadd. by rewrite Hr, Hv.
Qed.
