(** How far the computed float32 distances are from the exact ones. *)
From Verif Require Import GoBase FloatModel CodecSpec FloatProofs FloatReal.
From Coq Require Import SpecFloat Reals Psatz.
From Flocq Require Import Core BinarySingleNaN Relative Plus_error Div_sqrt_error.
Local Open Scope R_scope.

(** ** The exact distances, written from the IEEE-754 formula *)
(** The number a finite float32 bit pattern stands for. *)
Definition f32_real (b : f32) : R :=
  let sgn := if N.testbit b 31 then -1 else 1 in
  let e := Z.of_N ((b / 2 ^ 23) mod 2 ^ 8) in
  let m := IZR (Z.of_N (b mod 2 ^ 23)) in
  if Z.eqb e 0 then sgn * m * powerRZ 2 (-149)
  else sgn * (m + powerRZ 2 23) * powerRZ 2 (e - 150).

(** The exact sum of squared differences, and the Euclidean distance. *)
Fixpoint real_sq (v1 v2 : fvec) : R :=
  match v1, v2 with
  | a :: v1', b :: v2' => (f32_real a - f32_real b) ^ 2 + real_sq v1' v2'
  | _, _ => 0
  end.
Definition real_euclid (v1 v2 : fvec) : R := sqrt (real_sq v1 v2).
(** The exact inner product, and the sum of the absolute products. *)
Fixpoint real_dot (v1 v2 : fvec) : R :=
  match v1, v2 with
  | a :: v1', b :: v2' => f32_real a * f32_real b + real_dot v1' v2'
  | _, _ => 0
  end.
Fixpoint real_absdot (v1 v2 : fvec) : R :=
  match v1, v2 with
  | a :: v1', b :: v2' => Rabs (f32_real a * f32_real b) + real_absdot v1' v2'
  | _, _ => 0
  end.

Lemma powerRZ_bpow e : powerRZ 2 e = bpow radix2 e.
Proof. by rewrite bpow_powerRZ. Qed.

Lemma digits_lt p k : (Zpos p < 2 ^ k)%Z -> (0 <= k)%Z -> (Zpos (SpecFloat.digits2_pos p) <= k)%Z.
Proof. intros H Hk. rewrite Zpos_digits2_pos. by apply Zdigits_le_Zpower. Qed.

Lemma f32_val_real b : f32_finite b -> fin32 (f32_val b) /\ fval (f32_val b) = f32_real b.
Proof.
  unfold f32_finite, f32_real, f32_val. intros Hf.
  set (e := ((b / 2 ^ 23) mod 2 ^ 8)%N) in *. set (m := (b mod 2 ^ 23)%N).
  assert (He : (e < 256)%N) by (apply N.mod_lt; done).
  assert (Hm : (m < 8388608)%N) by (apply N.mod_lt; done).
  clearbody e m. set (s := N.testbit b 31). clearbody s.
  assert (Hs : forall p q, F2R (Float radix2 (cond_Zopp s (Zpos p)) q) =
    (if s then -1 else 1) * IZR (Zpos p) * bpow radix2 q).
  { intros p q. unfold F2R. cbn [Fnum Fexp]. destruct s; cbn [cond_Zopp];
      [rewrite opp_IZR|]; lra. }
  destruct (N.eqb_spec e 0) as [->|He0].
  - cbn [Z.of_N Z.eqb]. destruct m as [|p].
    + split; [done|]. unfold fval. simpl. lra.
    + split.
      * split; [|done]. cbn [valid_binary]. unfold bounded, canonical_mantissa.
        assert (Hd : (Zpos (SpecFloat.digits2_pos p) <= 23)%Z) by (apply digits_lt; lia).
        apply andb_true_intro. split; [apply Zeq_bool_true; unfold SpecFloat.fexp, SpecFloat.emin; lia|by apply Z.leb_le].
      * unfold fval. cbn [SF2R]. rewrite Hs, powerRZ_bpow. done.
  - destruct (N.eqb_spec e 255) as [->|_]; [done|].
    assert (HeZ : (Z.of_N e =? 0)%Z = false) by (apply Z.eqb_neq; lia). rewrite HeZ.
    destruct (m + 2 ^ 23)%N as [|p] eqn:Ep; [lia|]. 
    assert (HpZ : (Zpos p = Z.of_N m + 8388608)%Z) by lia.
    split.
    + split; [|done]. cbn [valid_binary]. unfold bounded, canonical_mantissa.
      assert (Hd : (Zpos (SpecFloat.digits2_pos p) = 24)%Z).
      { rewrite Zpos_digits2_pos. apply Zdigits_unique. rewrite Z.abs_eq by lia. 
        change (Zpower radix2 (24 - 1)) with 8388608%Z. change (Zpower radix2 24) with 16777216%Z. lia. }
      apply andb_true_intro. split; [apply Zeq_bool_true; unfold SpecFloat.fexp, SpecFloat.emin|apply Z.leb_le]; lia.
    + unfold fval. cbn [SF2R]. rewrite Hs, !powerRZ_bpow, HpZ, plus_IZR. done.
Qed.

Lemma pow_up_pos n : 0 < (1 + u32) ^ n.
Proof. apply pow_lt. pose proof u32_pos. lra. Qed.
Lemma pow_up_ge1 n : 1 <= (1 + u32) ^ n.
Proof. apply pow_R1_Rle. pose proof u32_pos. lra. Qed.
Lemma pow_lo_pos n : 0 < (1 - u32) ^ n.
Proof. apply pow_lt. pose proof u32_pos. lra. Qed.
Lemma pow_lo_le1 n : (1 - u32) ^ n <= 1.
Proof.
  pose proof u32_pos. induction n as [|n IH]; simpl; [lra|]. pose proof (pow_lo_pos n). nra.
Qed.

Lemma real_sq_nonneg v1 v2 : 0 <= real_sq v1 v2.
Proof.
  revert v2. induction v1 as [|a v1 IH]; intros [|b v2]; simpl; try lra.
  specialize (IH v2). pose proof (pow2_ge_0 (f32_real a - f32_real b)). simpl in *. lra.
Qed.

(** x^2 computed from a rounded difference *)
Lemma sq_bounds x c1 c2 h u : 0 < u < 1 ->
  1 - u <= c1 <= 1 + u -> 1 - u <= c2 <= 1 + u -> Rabs h <= eta32 ->
  (1 - u) ^ 3 * x ^ 2 - eta32 <= (x * c1) * (x * c1) * c2 + h <= (1 + u) ^ 3 * x ^ 2 + eta32.
Proof.
  intros Hu H1 H2 Hh%Rabs_le_inv.
  assert (Hx : 0 <= x ^ 2) by apply pow2_ge_0.
  assert (Hc : (1 - u) ^ 3 <= c1 * c1 * c2 <= (1 + u) ^ 3).
  { simpl. rewrite !Rmult_1_r. split.
    - rewrite <- Rmult_assoc. apply Rmult_le_compat; [nra|lra| |lra]. apply Rmult_le_compat; lra.
    - rewrite <- Rmult_assoc. apply Rmult_le_compat; [nra|lra| |lra]. apply Rmult_le_compat; lra. }
  replace (x * c1 * (x * c1) * c2) with ((c1 * c1 * c2) * x ^ 2) by (simpl; ring).
  split; [assert ((1 - u) ^ 3 * x ^ 2 <= c1 * c1 * c2 * x ^ 2) by (apply Rmult_le_compat_r; lra); lra|].
  assert (c1 * c1 * c2 * x ^ 2 <= (1 + u) ^ 3 * x ^ 2) by (apply Rmult_le_compat_r; lra). lra.
Qed.

Lemma abs_le_of_sq x e : x ^ 2 <= bpow radix2 (e + e) -> Rabs x <= bpow radix2 e.
Proof.
  intros H. rewrite bpow_plus in H. apply Rsqr_le_abs_0 in H || idtac.
  rewrite <- (Rabs_pos_eq (bpow radix2 e)) by apply bpow_ge_0.
  apply Rsqr_le_abs_0. unfold Rsqr. simpl in H. lra.
Qed.

(** The loop of EuclideanDistance. *)
Lemma euclid_loop_bounds v1 v2 sum :
  length v1 = length v2 -> Forall f32_finite v1 -> Forall f32_finite v2 ->
  fin32 sum -> 0 <= fval sum ->
  let n := length v1 in
  (1 + u32) ^ n * (fval sum + (1 + u32) ^ 3 * real_sq v1 v2 + INR n * eta32) <= bpow radix2 127 ->
  exists r, euclid_loop v1 v2 sum = Val r /\ fin32 r /\ 0 <= fval r /\
    (1 - u32) ^ n * (fval sum + (1 - u32) ^ 3 * real_sq v1 v2) - INR n * eta32 <= fval r /\
    fval r <= (1 + u32) ^ n * (fval sum + (1 + u32) ^ 3 * real_sq v1 v2 + INR n * eta32).
Proof.
  pose proof u32_pos as Hu. pose proof eta32_pos as He.
  revert v2 sum. induction v1 as [|a v1 IH]; intros [|b v2] sum Hl H1 H2 Hs Hs0 n HB; try done.
  { exists sum. subst n. simpl in *. split; [done|]. split; [done|]. split; [done|]. lra. }
  apply Forall_cons in H1 as [Ha H1]. apply Forall_cons in H2 as [Hb H2].
  injection Hl as Hl. cbn [euclid_loop real_sq length].
  destruct (f32_val_real a Ha) as [Fa Va], (f32_val_real b Hb) as [Fb Vb].
  set (x := f32_real a - f32_real b) in *.
  set (k := length v1) in *.
  assert (Hn : n = S k) by done. clearbody n. subst n.
  cbn [real_sq] in HB. fold x in HB.
  set (S' := real_sq v1 v2) in *.
  assert (HS : 0 <= S') by apply real_sq_nonneg.
  assert (Hx2 : 0 <= x ^ 2) by apply pow2_ge_0.
  set (B := (1 + u32) ^ S k * (fval sum + (1 + u32) ^ 3 * (x ^ 2 + S') + INR (S k) * eta32)) in *.
  assert (Hk : 0 <= INR k) by apply pos_INR.
  assert (HSk : INR (S k) = INR k + 1) by apply S_INR.
  assert (HP : 1 <= (1 + u32) ^ k) by apply pow_up_ge1.
  assert (HP1 : 1 <= (1 + u32) ^ S k) by apply pow_up_ge1.
  assert (H3 : 1 <= (1 + u32) ^ 3) by apply pow_up_ge1.
  assert (Hin : fval sum + (1 + u32) ^ 3 * x ^ 2 + eta32 <= B / (1 + u32)).
  { subst B. cbn [pow]. unfold Rdiv. 
    replace ((1 + u32) * (1 + u32) ^ k * (fval sum + (1 + u32) * ((1 + u32) * ((1 + u32) * 1)) * (x * (x * 1) + S') +
      INR (S k) * eta32) * / (1 + u32)) with ((1 + u32) ^ k * (fval sum + (1 + u32) ^ 3 * (x ^ 2 + S') + INR (S k) * eta32)) by (cbn [pow]; field; lra).
    rewrite HSk. 
    apply Rle_trans with (1 * (fval sum + (1 + u32) ^ 3 * (x ^ 2 + S') + (INR k + 1) * eta32)).
    - cbn [pow] in *. nra.
    - apply Rmult_le_compat_r; [|exact HP]. nra. }
  assert (HBpos : 0 <= B) by (eapply Rle_trans; [|apply (Rmult_le_compat_r (1 + u32)) in Hin; [|lra]; unfold Rdiv in Hin; rewrite Rmult_assoc, Rinv_l, Rmult_1_r in Hin by lra; exact Hin]; nra).
  assert (HBu : B / (1 + u32) <= B).
  { apply (Rmult_le_reg_r (1 + u32)); [lra|]. unfold Rdiv. rewrite Rmult_assoc, Rinv_l by lra. nra. }
  assert (Hx127 : x ^ 2 <= bpow radix2 127) by nra.
  destruct (fsub_step _ _ Fa Fb) as (Fd & c1 & Hc1 & Vd).
  { rewrite Va, Vb. fold x. apply abs_le_of_sq. eapply Rle_trans; [exact Hx127|]. by apply bpow_le. }
  rewrite Va, Vb in Vd. fold x in Vd.
  set (d := fsub (f32_val a) (f32_val b)) in *. clearbody d.
  assert (Hdd : 0 <= fval d * fval d <= bpow radix2 127).
  { rewrite Vd. split; [nra|]. 
    apply Rle_trans with ((1 + u32) ^ 3 * x ^ 2); [|nra].
    replace (x * c1 * (x * c1)) with (c1 * c1 * x ^ 2) by (simpl; ring).
    apply Rmult_le_compat_r; [lra|]. simpl. nra. }
  destruct (fmul_step d d Fd Fd) as (Ft & Vt & c2 & h & Hc2 & Hh & Vt').
  { rewrite Rabs_pos_eq by lra. lra. }
  assert (Ht0 : 0 <= fval (fmul d d)) by (rewrite Vt; apply rnd32_nonneg; lra).
  assert (Htb : (1 - u32) ^ 3 * x ^ 2 - eta32 <= fval (fmul d d) <= (1 + u32) ^ 3 * x ^ 2 + eta32).
  { rewrite Vt', Vd. by apply sq_bounds. }
  set (t := fmul d d) in *. clearbody t. clear Vt Vt' Vd Fd Hdd.
  destruct (fadd_step sum t Hs Ft) as (Fs & c3 & Hc3 & Vs).
  { rewrite Rabs_pos_eq by lra. lra. }
  set (s' := fadd sum t) in *. clearbody s'.
  assert (Hs'0 : 0 <= fval s') by (rewrite Vs; apply Rmult_le_pos; lra).
  assert (Hs'u : fval s' <= (1 + u32) * (fval sum + (1 + u32) ^ 3 * x ^ 2 + eta32)).
  { rewrite Vs, Rmult_comm. apply Rmult_le_compat; lra. }
  assert (Hs'l : (1 - u32) * (fval sum + (1 - u32) ^ 3 * x ^ 2) - (1 - u32) * eta32 <= fval s').
  { apply Rle_trans with ((1 - u32) * (fval sum + fval t)); [|rewrite Vs, (Rmult_comm _ c3); apply Rmult_le_compat_r; lra].
    rewrite <- Rmult_minus_distr_l. apply Rmult_le_compat_l; lra. }
  assert (HIB : (1 + u32) ^ k * (fval s' + (1 + u32) ^ 3 * S' + INR k * eta32) <= B).
  { subst B. rewrite HSk. cbn [pow]. rewrite (Rmult_comm (1 + u32) ((1 + u32) ^ k)), (Rmult_assoc ((1 + u32) ^ k) (1 + u32)).
    apply Rmult_le_compat_l; [lra|]. cbn [pow] in *.
    set (q := (1 + u32) * ((1 + u32) * ((1 + u32) * 1))) in *.
    assert (0 <= q * S') by (apply Rmult_le_pos; lra).
    assert (0 <= INR k * eta32) by (apply Rmult_le_pos; lra).
    assert (0 <= u32 * (q * S')) by (apply Rmult_le_pos; lra).
    assert (0 <= u32 * (INR k * eta32)) by (apply Rmult_le_pos; lra).
    lra. }
  destruct (IH v2 s' Hl H1 H2 Fs Hs'0) as (r & Hr & Fr & Hr0 & Hlo & Hup).
  { fold k S'. lra. }
  fold k S' in Hlo, Hup.
  exists r. split; [exact Hr|]. split; [exact Fr|]. split; [exact Hr0|]. split; [|lra].
  eapply Rle_trans; [|exact Hlo]. rewrite HSk. cbn [pow].
  pose proof (pow_lo_pos k) as Hq. pose proof (pow_lo_le1 k) as Hq1.
  set (q := (1 - u32) ^ k) in *. clearbody q. cbn [pow] in Hs'l.
  set (w := (1 - u32) * ((1 - u32) * ((1 - u32) * 1))) in *.
  assert (Hw : 0 <= w) by (subst w; repeat apply Rmult_le_pos; lra).
  assert (0 <= w * S') by (apply Rmult_le_pos; lra).
  assert (0 <= u32 * (w * S')) by (apply Rmult_le_pos; lra).
  assert (q * ((1 - u32) * (fval sum + w * (x * (x * 1))) - (1 - u32) * eta32 + w * S') <=
          q * (fval s' + w * S')) by (apply Rmult_le_compat_l; lra).
  assert (q * ((1 - u32) * (w * S')) <= q * (w * S')) by (apply Rmult_le_compat_l; lra).
  assert (q * (1 - u32) <= 1) by (clear -Hq Hq1 Hu; nra).
  assert (q * (1 - u32) * eta32 <= 1 * eta32) by (apply Rmult_le_compat_r; lra).
  lra.
Qed.

(** ** float32(math.Sqrt(float64(x))) *)
Lemma fconv_real prec emax (Hp : Prec_gt_0 prec) (Hm : Prec_lt_emax prec emax) x :
  is_finite_SF x = true -> Rabs (frnd prec emax (fval x)) < bpow radix2 emax ->
  ffin prec emax (fconv prec emax x) /\ fval (fconv prec emax x) = frnd prec emax (fval x).
Proof.
  intros Hf Hlt. destruct x as [s|s| |s m e]; try done.
  - cbn [fconv]. split; [done|]. unfold fval, frnd. cbn [SF2R].
    symmetry. apply round_0. apply _.
  - cbn [fconv]. by apply normalize_real.
Qed.

(** float64 holds every float32. *)
Lemma fin32_format64 x : fin32 x -> generic_format radix2 (SpecFloat.fexp 53 1024) (fval x).
Proof.
  intros H. apply ffin_format in H; [|apply _..].
  apply (generic_inclusion_mag radix2 (SpecFloat.fexp 24 128)); [|exact H].
  intros _. unfold SpecFloat.fexp, SpecFloat.emin. lia.
Qed.

Lemma fin32_lt x : fin32 x -> Rabs (fval x) < bpow radix2 128.
Proof. intros (b & _ & _ & ->)%ffin_B. apply abs_B2R_lt_emax. Qed.

Lemma fin32_ge x : fin32 x -> 0 < fval x -> bpow radix2 (-149) <= fval x.
Proof.
  intros H Hx. apply ffin_format in H; [|apply _..].
  apply (generic_format_ge_bpow radix2 (SpecFloat.fexp 24 128)); [|done|done].
  intros e. unfold SpecFloat.fexp, SpecFloat.emin. lia.
Qed.

Lemma rnd64_sqrt_err x : generic_format radix2 (SpecFloat.fexp 53 1024) x ->
  exists eps, Rabs eps <= u32 /\ rnd64 (sqrt x) = sqrt x * (1 + eps).
Proof.
  intros Hx.
  destruct (sqrt_error_N_FLT_ex radix2 53 (fun x => negb (Z.even x)) eq_refl (-1074) ltac:(lia) x Hx)
    as (eps & H1 & H2).
  exists eps. split; [|exact H2]. eapply Rle_trans; [exact H1|].
  set (u := u_ro radix2 53). assert (Hu : 0 < u <= u32).
  { subst u. unfold u_ro, u32. split; [apply Rmult_lt_0_compat; [lra|apply bpow_gt_0]|].
    apply Rmult_le_compat_l; [lra|]. by apply bpow_le. }
  assert (Hs : sqrt (1 + 2 * u) <= 1 + u).
  { apply Rsqr_incr_0_var; [|lra]. rewrite Rsqr_sqrt by lra. unfold Rsqr. nra. }
  assert (Hs0 : 0 < sqrt (1 + 2 * u)) by (apply sqrt_lt_R0; lra).
  assert (/ (1 + u) <= 1 / sqrt (1 + 2 * u)).
  { unfold Rdiv. rewrite Rmult_1_l. by apply Rinv_le. }
  assert (1 - u <= / (1 + u)).
  { apply (Rmult_le_reg_r (1 + u)); [lra|]. rewrite Rinv_l by lra. nra. }
  lra.
Qed.

Lemma fsqrt32_bounds x : fin32 x -> 0 <= fval x ->
  fin32 (fsqrt32 x) /\
  (1 - u32) ^ 2 * sqrt (fval x) <= fval (fsqrt32 x) <= (1 + u32) ^ 2 * sqrt (fval x).
Proof.
  intros Hx H0. pose proof u32_pos as Hu. pose proof (fin32_lt x Hx) as Hlt.
  rewrite Rabs_pos_eq in Hlt by done. pose proof (fin32_format64 x Hx) as H64.
  assert (Hid : rnd64 (fval x) = fval x) by (apply round_generic; [apply _|exact H64]).
  destruct (fconv_real 53 1024 _ _ x) as [F1 V1].
  { apply Hx. }
  { rewrite Hid, Rabs_pos_eq by done. eapply Rlt_le_trans; [exact Hlt|]. by apply bpow_le. }
  rewrite Hid in V1. unfold fsqrt32. set (y := fconv 53 1024 x) in *. clearbody y.
  destruct (SFsqrt_real 53 1024 _ _ y F1) as [F2 V2]; [lra|].
  rewrite V1 in V2. set (z := SFsqrt 53 1024 y) in *. clearbody z.
  destruct (rnd64_sqrt_err _ H64) as (e1 & He1%eps_lo & Hv1). rewrite Hv1 in V2.
  assert (Hs64 : sqrt (fval x) <= bpow radix2 64).
  { rewrite <- (sqrt_Rsqr (bpow radix2 64)) by apply bpow_ge_0.
    apply sqrt_le_1_alt. unfold Rsqr. rewrite <- bpow_plus. apply Rlt_le. exact Hlt. }
  pose proof (sqrt_pos (fval x)) as Hs0.
  assert (Hz : 0 <= fval z <= bpow radix2 65).
  { rewrite V2. split; [apply Rmult_le_pos; lra|].
    change 65%Z with (64 + 1)%Z. rewrite bpow_plus. apply Rmult_le_compat; [lra|lra|done|].
    simpl. lra. }
  destruct (fconv_real 24 128 _ _ z) as [F3 V3].
  { apply F2. }
  { apply rnd32_ok. rewrite Rabs_pos_eq by lra. eapply Rle_trans; [apply Hz|]. by apply bpow_le. }
  split; [exact F3|].
  destruct (Req_dec (fval x) 0) as [E|E].
  { rewrite E, sqrt_0 in *. rewrite V3, V2. rewrite Rmult_0_l. unfold frnd. rewrite round_0 by apply _. lra. }
  assert (Hge : bpow radix2 (-75) <= sqrt (fval x)).
  { rewrite <- (sqrt_Rsqr (bpow radix2 (-75))) by apply bpow_ge_0.
    apply sqrt_le_1_alt. unfold Rsqr. rewrite <- bpow_plus.
    eapply Rle_trans; [|apply fin32_ge; [exact Hx|lra]]. by apply bpow_le. }
  assert (Hzge : bpow radix2 (-126) <= fval z).
  { rewrite V2. apply Rle_trans with (bpow radix2 (-75) * / 2).
    - change (/ 2) with (bpow radix2 (-1)). rewrite <- bpow_plus. by apply bpow_le.
    - apply Rmult_le_compat; [apply bpow_ge_0|lra|exact Hge|].
      assert (u32 <= / 2); [|lra]. unfold u32.
      assert (bpow radix2 (-23) <= bpow radix2 0) by (by apply bpow_le). simpl (bpow radix2 0) in *. lra. }
  destruct (relative_error_N_FLT_ex radix2 (-149) 24 eq_refl (fun x => negb (Z.even x)) (fval z))
    as (e2 & He2%eps_lo & Hv2).
  { rewrite Rabs_pos_eq by lra. exact Hzge. }
  change (1 - u32 <= 1 + e2 <= 1 + u32) in He2.
  assert (V4 : fval (fconv 24 128 z) = sqrt (fval x) * ((1 + e1) * (1 + e2))).
  { rewrite V3. unfold frnd. etransitivity; [exact Hv2|]. rewrite V2. ring. }
  rewrite V4, (Rmult_comm ((1 - u32) ^ 2)), (Rmult_comm ((1 + u32) ^ 2)).
  assert (Hl : (1 - u32) ^ 2 <= (1 + e1) * (1 + e2)) by (simpl; rewrite Rmult_1_r; apply Rmult_le_compat; lra).
  assert (Hr : (1 + e1) * (1 + e2) <= (1 + u32) ^ 2) by (simpl; rewrite Rmult_1_r; apply Rmult_le_compat; lra).
  split; (apply Rmult_le_compat_l; [exact Hs0|]); [exact Hl|exact Hr].
Qed.

(** ** EuclideanDistance *)
Lemma pow_up_le2 k : INR k <= bpow radix2 23 -> (1 + u32) ^ k <= 2.
Proof.
  intros Hk. pose proof u32_pos as Hu.
  assert (Hlo : forall j, 1 - INR j * u32 <= (1 - u32) ^ j).
  { induction j as [|j IH]; [simpl; lra|]. rewrite S_INR. cbn [pow].
    pose proof (pow_lo_le1 j). pose proof (pow_lo_pos j). pose proof (pos_INR j). nra. }
  assert (Hprod : (1 - u32) ^ k * (1 + u32) ^ k <= 1).
  { rewrite <- Rpow_mult_distr. apply Rle_trans with (1 ^ k); [|rewrite pow1; lra].
    apply pow_incr. split; nra. }
  specialize (Hlo k). assert (INR k * u32 <= / 2).
  { unfold u32. apply Rle_trans with (bpow radix2 23 * (/ 2 * bpow radix2 (-23))).
    - apply Rmult_le_compat_r; [|done]. apply Rmult_le_pos; [lra|apply bpow_ge_0].
    - rewrite (Rmult_comm (/ 2)), <- Rmult_assoc, <- bpow_plus. simpl. lra. }
  pose proof (pow_up_pos k).
  assert (/ 2 * (1 + u32) ^ k <= (1 - u32) ^ k * (1 + u32) ^ k) by (apply Rmult_le_compat_r; lra).
  lra.
Qed.

Lemma sqrt_pow2n c k : 0 <= c -> sqrt (c ^ (2 * k)) = c ^ k.
Proof.
  intros Hc. rewrite <- Rsqr_pow2 || idtac.
  replace (c ^ (2 * k)) with (Rsqr (c ^ k)) by (unfold Rsqr; rewrite <- pow_add; f_equal; lia).
  apply sqrt_Rsqr. by apply pow_le.
Qed.

Lemma sqrt_plus_le a b : 0 <= a -> 0 <= b -> sqrt (a + b) <= sqrt a + sqrt b.
Proof.
  intros Ha Hb. apply Rsqr_incr_0_var; [|pose proof (sqrt_pos a); pose proof (sqrt_pos b); lra].
  rewrite Rsqr_sqrt by lra. rewrite Rsqr_plus, !Rsqr_sqrt by done.
  pose proof (sqrt_pos a). pose proof (sqrt_pos b). nra.
Qed.

(** The absolute error left by underflow in a sum of [n] squares. *)
Definition tiny (n : nat) : R := sqrt (INR n) * powerRZ 2 (-75).

Lemma tiny_sqrt n : sqrt (INR n * eta32) = tiny n.
Proof.
  unfold tiny. rewrite sqrt_mult by (pose proof (pos_INR n); pose proof eta32_pos; lra). f_equal.
  unfold eta32. change (/ 2) with (bpow radix2 (-1)). rewrite <- bpow_plus, powerRZ_bpow.
  rewrite <- (sqrt_Rsqr (bpow radix2 (-75))) by apply bpow_ge_0.
  unfold Rsqr. rewrite <- bpow_plus. done.
Qed.

Lemma u32_val : u32 = powerRZ 2 (-24).
Proof.
  unfold u32. rewrite powerRZ_bpow. change (/ 2) with (bpow radix2 (-1)).
  by rewrite <- bpow_plus.
Qed.

Lemma euclidean_bounds v1 v2 :
  length v1 = length v2 -> Forall f32_finite v1 -> Forall f32_finite v2 ->
  let n := length v1 in
  INR n <= powerRZ 2 22 -> real_euclid v1 v2 <= powerRZ 2 62 ->
  exists d, euclidean v1 v2 = Val d /\ fin32 d /\
    (1 - u32) ^ (n / 2 + 4) * real_euclid v1 v2 - tiny n <= fval d /\
    fval d <= (1 + u32) ^ (n / 2 + 4) * (real_euclid v1 v2 + tiny n).
Proof.
  intros Hl H1 H2 n Hn Hd. pose proof u32_pos as Hu. pose proof eta32_pos as He.
  rewrite powerRZ_bpow in Hn, Hd.
  set (S := real_sq v1 v2). assert (HS : 0 <= S) by apply real_sq_nonneg.
  assert (HS124 : S <= bpow radix2 124).
  { apply sqrt_le_0; [done|apply bpow_ge_0|]. eapply Rle_trans; [exact Hd|].
    rewrite <- (sqrt_Rsqr (bpow radix2 62)) by apply bpow_ge_0.
    apply sqrt_le_1_alt. unfold Rsqr. rewrite <- bpow_plus. by apply bpow_le. }
  assert (HI : 0 <= INR n) by apply pos_INR.
  assert (Hne : INR n * eta32 <= bpow radix2 124).
  { apply Rle_trans with (bpow radix2 22 * bpow radix2 (-149)).
    - apply Rmult_le_compat; [lra|lra|done|]. unfold eta32. pose proof (bpow_ge_0 radix2 (-149)). lra.
    - rewrite <- bpow_plus. by apply bpow_le. }
  assert (H23 : (1 + u32) ^ (n + 3) <= 2).
  { apply pow_up_le2. rewrite plus_INR. change 23%Z with (22 + 1)%Z. rewrite bpow_plus.
    assert (4 <= bpow radix2 22).
    { apply Rle_trans with (bpow radix2 2); [simpl; lra|by apply bpow_le]. }
    simpl (bpow radix2 1). simpl (INR 3). lra. }
  assert (Hne0 : 0 <= INR n * eta32) by (apply Rmult_le_pos; lra).
  assert (HU : (1 + u32) ^ n * (0 + (1 + u32) ^ 3 * S + INR n * eta32)
     <= (1 + u32) ^ (n + 3) * (S + INR n * eta32)).
  { rewrite pow_add, Rmult_assoc. pose proof (pow_up_pos n). pose proof (pow_up_ge1 3).
    apply Rmult_le_compat_l; [lra|].
    assert (1 * (INR n * eta32) <= (1 + u32) ^ 3 * (INR n * eta32)) by (apply Rmult_le_compat_r; lra). lra. }
  destruct (euclid_loop_bounds v1 v2 fzero Hl H1 H2) as (r & Hr & Fr & Hr0 & Hlo & Hup).
  { done. }
  { unfold fval. simpl. lra. }
  { fold n S. change (fval fzero) with 0. eapply Rle_trans; [exact HU|].
    apply Rle_trans with (2 * (bpow radix2 124 + bpow radix2 124)).
    - apply Rmult_le_compat; [apply Rlt_le, pow_up_pos|lra|done|lra].
    - change 127%Z with (124 + 3)%Z. rewrite bpow_plus. pose proof (bpow_gt_0 radix2 124).
      simpl (bpow radix2 3). lra. }
  fold n S in Hlo, Hup. change (fval fzero) with 0 in Hlo, Hup.
  destruct (fsqrt32_bounds r Fr Hr0) as [Fd [Hdl Hdu]].
  exists (fsqrt32 r). split; [unfold euclidean; by rewrite Hr|]. split; [exact Fd|].
  set (k := (n / 2 + 2)%nat).
  assert (Hk : (n + 3 <= 2 * k)%nat).
  { subst k. pose proof (Nat.div_mod_eq n 2). pose proof (Nat.mod_upper_bound n 2). lia. }
  replace (n / 2 + 4)%nat with (2 + k)%nat by (subst k; lia). rewrite !pow_add.
  unfold real_euclid. fold S. pose proof (sqrt_pos S) as HsS.
  assert (Ht : 0 <= tiny n) by (rewrite <- tiny_sqrt; apply sqrt_pos).
  assert (Hcu : 0 <= 1 + u32) by lra. assert (Hcl : 0 <= 1 - u32) by lra.
  split.
  - assert (Hlow : (1 - u32) ^ k * sqrt S <= sqrt (fval r) + tiny n).
    { rewrite <- (sqrt_pow2n (1 - u32) k Hcl), <- sqrt_mult; [|apply pow_le; lra|done].
      rewrite <- tiny_sqrt. eapply Rle_trans; [|apply sqrt_plus_le; [done|exact Hne0]].
      apply sqrt_le_1_alt. 
      assert (Hm : (1 - u32) ^ (2 * k) <= (1 - u32) ^ (n + 3)).
      { replace (2 * k)%nat with ((n + 3) + (2 * k - (n + 3)))%nat by lia. rewrite (pow_add _ (n + 3)).
        pose proof (pow_lo_le1 (2 * k - (n + 3))). pose proof (pow_lo_pos (n + 3)). nra. }
      apply Rle_trans with ((1 - u32) ^ (n + 3) * S); [apply Rmult_le_compat_r; lra|].
      rewrite pow_add. lra. }
    pose proof (pow_lo_pos 2). pose proof (pow_lo_le1 2).
    assert ((1 - u32) ^ 2 * ((1 - u32) ^ k * sqrt S) <= (1 - u32) ^ 2 * (sqrt (fval r) + tiny n))
      by (apply Rmult_le_compat_l; lra).
    assert ((1 - u32) ^ 2 * tiny n <= 1 * tiny n) by (apply Rmult_le_compat_r; lra).
    lra.
  - assert (Hhigh : sqrt (fval r) <= (1 + u32) ^ k * (sqrt S + tiny n)).
    { apply Rle_trans with (sqrt ((1 + u32) ^ (2 * k) * (S + INR n * eta32))).
      - apply sqrt_le_1_alt. eapply Rle_trans; [exact Hup|]. eapply Rle_trans; [exact HU|].
        apply Rmult_le_compat_r; [lra|]. apply Rle_pow; [lra|exact Hk].
      - rewrite sqrt_mult; [|apply pow_le; lra|lra]. rewrite (sqrt_pow2n (1 + u32) k Hcu).
        apply Rmult_le_compat_l; [apply pow_le; lra|]. rewrite <- tiny_sqrt. apply sqrt_plus_le; lra. }
    eapply Rle_trans; [exact Hdu|]. rewrite Rmult_assoc.
    apply Rmult_le_compat_l; [apply pow_le; lra|exact Hhigh].
Qed.

(** ** Dot *)
Lemma real_absdot_nonneg v1 v2 : 0 <= real_absdot v1 v2.
Proof.
  revert v2. induction v1 as [|a v1 IH]; intros [|b v2]; simpl; try lra.
  specialize (IH v2). pose proof (Rabs_pos (f32_real a * f32_real b)). lra.
Qed.

Lemma dot_spec_bounds v1 v2 sum :
  length v1 = length v2 -> Forall f32_finite v1 -> Forall f32_finite v2 -> fin32 sum ->
  let n := length v1 in
  (1 + u32) ^ n * (Rabs (fval sum) + (1 + u32) * real_absdot v1 v2 + INR n * eta32) <= bpow radix2 127 ->
  fin32 (dot_spec v1 v2 sum) /\
  Rabs (fval (dot_spec v1 v2 sum) - (fval sum + real_dot v1 v2)) <=
    ((1 + u32) ^ n - 1) * Rabs (fval sum) + ((1 + u32) ^ (n + 1) - 1) * real_absdot v1 v2 +
    INR n * (1 + u32) ^ n * eta32.
Proof.
  pose proof u32_pos as Hu. pose proof eta32_pos as He.
  revert v2 sum. induction v1 as [|a v1 IH]; intros [|b v2] sum Hl H1 H2 Hs n HB; try done.
  { subst n. simpl. split; [done|]. rewrite Rplus_0_r, Rminus_diag_eq, Rabs_R0 by done. lra. }
  apply Forall_cons in H1 as [Ha H1]. apply Forall_cons in H2 as [Hb H2].
  injection Hl as Hl. cbn [dot_spec real_dot real_absdot length].
  destruct (f32_val_real a Ha) as [Fa Va], (f32_val_real b Hb) as [Fb Vb].
  cbn [real_absdot] in HB.
  set (x := f32_real a * f32_real b) in *. set (k := length v1) in *.
  assert (Hn : n = S k) by done. clearbody n. subst n.
  set (A' := real_absdot v1 v2) in *. assert (HA : 0 <= A') by apply real_absdot_nonneg.
  assert (Hk : 0 <= INR k) by apply pos_INR.
  assert (HSk : INR (S k) = INR k + 1) by apply S_INR. rewrite HSk in *.
  pose proof (pow_up_ge1 k) as HP. set (p := (1 + u32) ^ k) in *.
  replace ((1 + u32) ^ S k) with ((1 + u32) * p) in * by done.
  replace ((1 + u32) ^ (S k + 1)) with ((1 + u32) * (1 + u32) * p) by (rewrite pow_add; simpl; fold p; ring).
  pose proof (Rabs_pos x) as Hx0. pose proof (Rabs_pos (fval sum)) as Hs0.
  assert (Hke : 0 <= INR k * eta32) by (apply Rmult_le_pos; lra).
  set (Z := Rabs (fval sum) + (1 + u32) * (Rabs x + A') + (INR k + 1) * eta32) in *.
  assert (HuA : 0 <= u32 * A') by (apply Rmult_le_pos; lra).
  assert (Hux : 0 <= u32 * Rabs x) by (apply Rmult_le_pos; lra).
  assert (HZ : 0 <= Z) by (subst Z; lra).
  assert (HZB : (1 + u32) * Z <= bpow radix2 127).
  { eapply Rle_trans; [|exact HB]. rewrite Rmult_assoc. apply Rmult_le_compat_l; [lra|].
    rewrite <- (Rmult_1_l Z) at 1. by apply Rmult_le_compat_r. }
  assert (HuZ : 0 <= u32 * Z) by (apply Rmult_le_pos; lra).
  destruct (fmul_step _ _ Fa Fb) as (Ft & _ & c2 & h & Hc2 & Hh & Vt).
  { rewrite Va, Vb. fold x. subst Z. lra. }
  rewrite Va, Vb in Vt. fold x in Vt.
  set (t := fmul (f32_val a) (f32_val b)) in *. clearbody t.
  assert (Htx : Rabs (fval t - x) <= u32 * Rabs x + eta32).
  { rewrite Vt. replace (x * c2 + h - x) with (x * (c2 - 1) + h) by ring.
    eapply Rle_trans; [apply Rabs_triang|]. rewrite Rabs_mult, (Rmult_comm u32).
    apply Rplus_le_compat; [|done]. apply Rmult_le_compat_l; [done|]. apply Rabs_le. lra. }
  assert (Hta : Rabs (fval t) <= (1 + u32) * Rabs x + eta32).
  { replace (fval t) with ((fval t - x) + x) by ring. eapply Rle_trans; [apply Rabs_triang|]. lra. }
  assert (Hsum : Rabs (fval sum + fval t) <= Rabs (fval sum) + (1 + u32) * Rabs x + eta32).
  { eapply Rle_trans; [apply Rabs_triang|]. lra. }
  destruct (fadd_step sum t Hs Ft) as (Fs & c3 & Hc3 & Vs).
  { subst Z. lra. }
  set (s' := fadd sum t) in *. clearbody s'.
  assert (Hs'a : Rabs (fval s') <= (1 + u32) * (Rabs (fval sum) + (1 + u32) * Rabs x + eta32)).
  { rewrite Vs, Rabs_mult, Rmult_comm. apply Rmult_le_compat; [apply Rabs_pos..| |done].
    apply Rabs_le. lra. }
  assert (Hs'd : Rabs (fval s' - (fval sum + x)) <=
    u32 * Rabs (fval sum) + ((1 + u32) * (1 + u32) - 1) * Rabs x + (1 + u32) * eta32).
  { rewrite Vs. replace ((fval sum + fval t) * c3 - (fval sum + x))
      with ((fval sum + fval t) * (c3 - 1) + (fval t - x)) by ring.
    eapply Rle_trans; [apply Rabs_triang|]. rewrite Rabs_mult.
    assert (Rabs (fval sum + fval t) * Rabs (c3 - 1) <=
      (Rabs (fval sum) + (1 + u32) * Rabs x + eta32) * u32).
    { apply Rmult_le_compat; [apply Rabs_pos..|done|]. apply Rabs_le. lra. }
    lra. }
  destruct (IH v2 s' Hl H1 H2 Fs) as [Fr Hr].
  { fold k p A'. eapply Rle_trans; [|exact HB]. rewrite (Rmult_comm (1 + u32) p), Rmult_assoc.
    apply Rmult_le_compat_l; [lra|]. subst Z.
    assert (0 <= u32 * (u32 * A')) by (apply Rmult_le_pos; lra).
    assert (0 <= u32 * (INR k * eta32)) by (apply Rmult_le_pos; lra). lra. }
  split; [exact Fr|]. fold k A' in Hr. rewrite pow_add in Hr. fold p in Hr.
  replace ((1 + u32) ^ 1) with (1 + u32) in Hr by (simpl; ring).
  set (r := fval (dot_spec v1 v2 s')) in *. clearbody r. set (D := real_dot v1 v2) in *. clearbody D.
  replace (r - (fval sum + (x + D))) with ((r - (fval s' + D)) + (fval s' - (fval sum + x))) by ring.
  eapply Rle_trans; [apply Rabs_triang|].
  assert ((p - 1) * Rabs (fval s') <= (p - 1) * ((1 + u32) * (Rabs (fval sum) + (1 + u32) * Rabs x + eta32)))
    by (apply Rmult_le_compat_l; lra).
  assert (0 <= p * A') by (apply Rmult_le_pos; lra).
  assert (0 <= u32 * (p * A')) by (apply Rmult_le_pos; lra).
  assert (0 <= u32 * (u32 * (p * A'))) by (apply Rmult_le_pos; lra).
  assert (0 <= p * (INR k * eta32)) by (apply Rmult_le_pos; lra).
  assert (0 <= u32 * (p * (INR k * eta32))) by (apply Rmult_le_pos; lra).
  lra.
Qed.

Lemma dot_bounds v1 v2 :
  length v1 = length v2 -> (length v1 mod 8 = 0)%nat -> Forall f32_finite v1 -> Forall f32_finite v2 ->
  let n := length v1 in
  INR n <= powerRZ 2 22 -> real_absdot v1 v2 <= powerRZ 2 124 ->
  exists d, dot v1 v2 = Val d /\ fin32 d /\
    Rabs (fval d - real_dot v1 v2) <=
      ((1 + u32) ^ (n + 1) - 1) * real_absdot v1 v2 + INR n * (1 + u32) ^ n * powerRZ 2 (-150).
Proof.
  intros Hl Hm H1 H2 n Hn HA. rewrite !powerRZ_bpow in *. pose proof u32_pos as Hu. pose proof eta32_pos as He.
  rewrite (dot_mult8 v1 v2 Hl Hm). eexists. split; [reflexivity|].
  assert (HI : 0 <= INR n) by apply pos_INR. pose proof (real_absdot_nonneg v1 v2) as HA0.
  assert (Hne0 : 0 <= INR n * eta32) by (apply Rmult_le_pos; lra).
  assert (Hne : INR n * eta32 <= bpow radix2 124).
  { apply Rle_trans with (bpow radix2 22 * bpow radix2 (-149)).
    - apply Rmult_le_compat; [lra|lra|done|]. unfold eta32. pose proof (bpow_ge_0 radix2 (-149)). lra.
    - rewrite <- bpow_plus. by apply bpow_le. }
  assert (Hp2 : (1 + u32) ^ n <= 2).
  { apply pow_up_le2. eapply Rle_trans; [exact Hn|]. by apply bpow_le. }
  destruct (dot_spec_bounds v1 v2 fzero Hl H1 H2) as [Fr Hr]; [done| |].
  { fold n. change (fval fzero) with 0. rewrite Rabs_R0.
    apply Rle_trans with (2 * (0 + 2 * bpow radix2 124 + bpow radix2 124)).
    - assert ((1 + u32) * real_absdot v1 v2 <= 2 * bpow radix2 124) by (apply Rmult_le_compat; lra).
      assert (0 <= (1 + u32) * real_absdot v1 v2) by (apply Rmult_le_pos; lra).
      apply Rmult_le_compat; [apply Rlt_le, pow_up_pos|lra|done|lra].
    - change 127%Z with (124 + 3)%Z. rewrite bpow_plus. pose proof (bpow_gt_0 radix2 124).
      simpl (bpow radix2 3). lra. }
  split; [exact Fr|]. fold n in Hr. change (fval fzero) with 0 in Hr. rewrite Rabs_R0, Rmult_0_r, Rplus_0_l, Rplus_0_l in Hr.
  eapply Rle_trans; [exact Hr|]. right. do 2 f_equal. unfold eta32.
  change (/ 2) with (bpow radix2 (-1)). by rewrite <- bpow_plus.
Qed.
