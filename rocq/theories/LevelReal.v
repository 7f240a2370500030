(** The level of a vertex against real numbers. *)
From Verif Require Import GoBase FloatModel LevelModel FloatReal DistReal.
From Coq Require Import SpecFloat Reals Psatz.
From Flocq Require Import Core BinarySingleNaN Relative.
Local Open Scope R_scope.

(** What is assumed of math.Log (its documentation and source: special values,
    and an error below one unit in the last place). *)
Record log_ok (log : f64 -> f64) : Prop := MkLogOk {
  log_zero : log (S754_zero false) = S754_infinity true;
  log_one : log f64_one = S754_zero false;
  log_close : forall x, fin64 x -> 0 < fval x -> fval x <> 1 ->
    fin64 (log x) /\ Rabs (fval (log x) - ln (fval x)) <= powerRZ 2 (-52) * Rabs (ln (fval x))
}.

(** ** Elementary facts *)
Lemma ln_le_sub y : 0 < y -> ln y <= y - 1.
Proof. intros H. pose proof (exp_ineq1_le (ln y)) as E. rewrite exp_ln in E by done. lra. Qed.
Lemma ln_ge_inv y : 0 < y -> 1 - / y <= ln y.
Proof.
  intros H. pose proof (ln_le_sub (/ y) (Rinv_0_lt_compat _ H)) as E. rewrite ln_Rinv in E by done. lra.
Qed.
Lemma ln_mono x y : 0 < x -> x <= y -> ln x <= ln y.
Proof. intros H [Hl | ->]; [|lra]. left. by apply ln_increasing. Qed.
Lemma ln2_bounds : / 2 <= ln 2 <= 1.
Proof.
  split; [pose proof (ln_ge_inv 2 ltac:(lra)); lra|]. pose proof (ln_le_sub 2 ltac:(lra)). lra.
Qed.
Lemma ln_bpow e : ln (bpow radix2 e) = IZR e * ln 2.
Proof. rewrite bpow_powerRZ. change (IZR radix2) with 2. rewrite powerRZ_Rpower by lra.
  unfold Rpower. by rewrite ln_exp. Qed.

Lemma rnd64_ok r : Rabs r <= bpow radix2 1000 -> Rabs (rnd64 r) < bpow radix2 1024.
Proof.
  intros H. apply (frnd_lt_bpow 53 1024 _ r 1000) in H; [|done].
  eapply Rle_lt_trans; [exact H|]. by apply bpow_lt.
Qed.

Definition u64 : R := powerRZ 2 (-53).
Lemma u64_val : u64 = bpow radix2 (-53).
Proof. unfold u64. by rewrite powerRZ_bpow. Qed.
Lemma u64_pos : 0 < u64 <= / 1024.
Proof.
  rewrite u64_val. split; [apply bpow_gt_0|]. apply Rle_trans with (bpow radix2 (-10)); [by apply bpow_le|].
  simpl. lra.
Qed.

Lemma rnd64_rel r : bpow radix2 (-1000) <= Rabs r -> exists e, Rabs e <= u64 /\ rnd64 r = r * (1 + e).
Proof.
  intros H. destruct (relative_error_N_FLT_ex radix2 (-1074) 53 eq_refl (fun x => negb (Z.even x)) r)
    as (e & He & Hv).
  { eapply Rle_trans; [|exact H]. by apply bpow_le. }
  exists e. split; [|exact Hv]. rewrite u64_val. eapply Rle_trans; [exact He|].
  change (/ 2 * bpow radix2 (-52) <= bpow radix2 (-1 + -52)). rewrite (bpow_plus radix2 (-1)).
  change (bpow radix2 (-1)) with (/ 2). lra.
Qed.

(** A float64 other than 1 is not too near to 1. *)
Lemma fin64_format x : fin64 x -> generic_format radix2 (SpecFloat.fexp 53 1024) (fval x).
Proof. apply ffin_format; apply _. Qed.

Lemma one_format : generic_format radix2 (SpecFloat.fexp 53 1024) 1.
Proof. change 1 with (bpow radix2 0). by apply generic_format_FLT_bpow. Qed.

Lemma below_one x : fin64 x -> fval x < 1 -> fval x <= 1 - u64.
Proof.
  intros Hx Hlt. pose proof (fin64_format x Hx) as Hf.
  assert (fval x <= pred radix2 (SpecFloat.fexp 53 1024) 1) as H.
  { apply pred_ge_gt; try done; [by apply FLT_exp_valid|apply one_format]. }
  eapply Rle_trans; [exact H|]. change 1 with (bpow radix2 0) at 1.
  rewrite pred_bpow by (by apply FLT_exp_valid). rewrite u64_val. simpl (bpow radix2 0).
  change (SpecFloat.fexp 53 1024 0) with (-53)%Z. lra.
Qed.
Lemma above_one x : fin64 x -> 1 < fval x -> 1 + 2 * u64 <= fval x.
Proof.
  intros Hx Hlt. pose proof (fin64_format x Hx) as Hf.
  assert (succ radix2 (SpecFloat.fexp 53 1024) 1 <= fval x) as H.
  { apply succ_le_lt; try done; [by apply FLT_exp_valid|apply one_format]. }
  eapply Rle_trans; [|exact H]. rewrite succ_eq_pos by lra.
  change 1 with (bpow radix2 0) at 3. rewrite ulp_bpow.
  change (SpecFloat.fexp 53 1024 (0 + 1)) with (1 + -53)%Z. rewrite bpow_plus, u64_val.
  simpl (bpow radix2 1). lra.
Qed.

Lemma ln_away x : fin64 x -> 0 < fval x -> fval x <> 1 -> u64 <= Rabs (ln (fval x)).
Proof.
  intros Hx Hp Hn. pose proof u64_pos as [U1 U2]. destruct (Rtotal_order (fval x) 1) as [H|[H|H]]; [|done|].
  - pose proof (below_one x Hx H). pose proof (ln_le_sub _ Hp). rewrite Rabs_left by lra. lra.
  - pose proof (above_one x Hx H) as Ha. pose proof ln2_bounds.
    assert (u64 <= ln (fval x)); [|by rewrite Rabs_pos_eq by lra].
    destruct (Rle_or_lt 2 (fval x)) as [H2|H2].
    + pose proof (ln_mono 2 (fval x)). lra.
    + pose proof (ln_ge_inv _ Hp) as Hi. eapply Rle_trans; [|exact Hi].
      apply (Rmult_le_reg_r (fval x)); [done|]. rewrite Rmult_minus_distr_r, Rinv_l by lra. nra.
Qed.
Lemma fval_range x : fin64 x -> 0 < fval x -> bpow radix2 (-1074) <= fval x < bpow radix2 1024.
Proof.
  intros Hx Hp. destruct (ffin_B _ _ _ Hx) as (b & -> & Fb & E). rewrite E in *.
  split.
  - pose proof (abs_B2R_ge_emin 53 1024 b) as H. rewrite Rabs_pos_eq in H by lra. apply H.
    destruct b; simpl in *; try done; lra.
  - pose proof (abs_B2R_lt_emax 53 1024 b) as H. rewrite Rabs_pos_eq in H by lra. exact H.
Qed.
Lemma ln_range x : fin64 x -> 0 < fval x -> Rabs (ln (fval x)) <= 1074.
Proof.
  intros Hx Hp. destruct (fval_range x Hx Hp) as [Hl Hu]. pose proof ln2_bounds.
  pose proof (ln_mono _ _ (bpow_gt_0 radix2 (-1074)) Hl) as H1. rewrite ln_bpow in H1.
  pose proof (ln_mono _ _ Hp (Rlt_le _ _ Hu)) as H2. rewrite ln_bpow in H2.
  apply Rabs_le. split; nra.
Qed.

(** ** The contract can be met: round the real logarithm. *)
Definition log_round (x : f64) : f64 :=
  match x with
  | S754_zero _ => S754_infinity true
  | _ =>
      if SFeqb x f64_one then S754_zero false
      else let l := ln (fval x) in
           let F := SpecFloat.fexp 53 1024 in
           SpecFloat.binary_normalize 53 1024 (ZnearestE (scaled_mantissa radix2 F l)) (cexp radix2 F l) false
  end.
Lemma fval_one : fin64 f64_one /\ fval f64_one = 1.
Proof. split; [by split|]. change f64_one with (S754_finite false 4503599627370496 (-52)).
  unfold fval, SF2R, F2R. cbn [cond_Zopp Fnum Fexp]. change 4503599627370496%Z with (2 ^ 52)%Z.
  rewrite (IZR_Zpower radix2) by done. rewrite <- bpow_plus. done. Qed.
Lemma log_round_ok : log_ok log_round.
Proof.
  split; [done|done|]. intros x Hx Hp Hn. pose proof u64_pos as [U1 U2].
  assert (SFeqb x f64_one = false) as Hne.
  { destruct fval_one as [F1 V1]. destruct (SFeqb x f64_one) eqn:E; [|done]. exfalso. apply Hn.
    destruct (ffin_B _ _ _ Hx) as (b & -> & Fb & Eb). destruct (ffin_B _ _ _ F1) as (c & Ec & Fc & Vc).
    rewrite Ec in E. pose proof (Beqb_correct 53 1024 b c Fb Fc) as H. unfold Beqb in H. rewrite E in H.
    symmetry in H. rewrite Eb, <- V1, Vc. destruct (Req_bool_spec (B2R b) (B2R c)); done. }
  set (l := ln (fval x)). pose proof (ln_away x Hx Hp Hn) as Ha. pose proof (ln_range x Hx Hp) as Hr. fold l in Ha, Hr.
  destruct (rnd64_rel l) as (e & He & Hv).
  { eapply Rle_trans; [|exact Ha]. rewrite u64_val. by apply bpow_le. }
  assert (Rabs (rnd64 l) < bpow radix2 1024) as Hb.
  { apply rnd64_ok. eapply Rle_trans; [exact Hr|]. apply Rle_trans with (bpow radix2 11); [simpl; lra|by apply bpow_le]. }
  assert (generic_format radix2 (SpecFloat.fexp 53 1024) (rnd64 l)) as Hg.
  { apply generic_format_round; [by apply FLT_exp_valid|apply _]. }
  assert (log_round x = SpecFloat.binary_normalize 53 1024
    (ZnearestE (scaled_mantissa radix2 (SpecFloat.fexp 53 1024) l)) (cexp radix2 (SpecFloat.fexp 53 1024) l) false) as El.
  { unfold log_round. rewrite Hne. destruct x; try done. unfold fval in Hp; simpl in Hp; lra. }
  destruct (normalize_real 53 1024 _ _ (ZnearestE (scaled_mantissa radix2 (SpecFloat.fexp 53 1024) l))
    (cexp radix2 (SpecFloat.fexp 53 1024) l) false) as [Hf Hval].
  { change (F2R _) with (rnd64 l). unfold frnd at 1. by rewrite round_generic by (done || apply _). }
  rewrite El. split; [done|]. rewrite Hval. change (F2R _) with (rnd64 l).
  unfold frnd at 1. rewrite round_generic by (done || apply _). rewrite Hv.
  replace (l * (1 + e) - l) with (e * l) by ring. rewrite Rabs_mult.
  apply Rmult_le_compat_r; [apply Rabs_pos|]. eapply Rle_trans; [exact He|].
  rewrite u64_val, powerRZ_bpow. by apply bpow_le.
Qed.

(** ** Integers as float64 *)
Lemma f64_of_int_real z : (Z.abs z <= 2 ^ 63)%Z ->
  fin64 (f64_of_int z) /\ fval (f64_of_int z) = rnd64 (IZR z).
Proof.
  intros Hz. assert (F2R (Float radix2 z 0) = IZR z) as E.
  { unfold F2R. simpl. lra. }
  destruct (normalize_real 53 1024 _ _ z 0 false) as [Hf Hv].
  { rewrite E. apply rnd64_ok. rewrite <- abs_IZR. apply Rle_trans with (IZR (2 ^ 63)); [by apply IZR_le|].
    rewrite (IZR_Zpower radix2) by done. by apply bpow_le. }
  split; [exact Hf|]. unfold f64_of_int. rewrite Hv. by rewrite E.
Qed.
Lemma rnd64_bpow_le e r : (-1000 <= e <= 1000)%Z -> bpow radix2 e <= r -> bpow radix2 e <= rnd64 r.
Proof.
  intros He Hr. unfold frnd. apply round_ge_generic; [by apply FLT_exp_valid|apply _| |done].
  apply generic_format_FLT_bpow; [done|unfold emin; lia].
Qed.
Lemma rnd64_le_bpow e r : (-1000 <= e <= 1000)%Z -> r <= bpow radix2 e -> rnd64 r <= bpow radix2 e.
Proof.
  intros He Hr. unfold frnd. apply round_le_generic; [by apply FLT_exp_valid|apply _| |done].
  apply generic_format_FLT_bpow; [done|unfold emin; lia].
Qed.
(** Exact up to 2^53. *)
Lemma f64_of_int_exact z : (Z.abs z <= 2 ^ 53)%Z -> fval (f64_of_int z) = IZR z.
Proof.
  intros Hz. destruct (f64_of_int_real z) as [_ ->]; [lia|]. unfold frnd. apply round_generic; [apply _|].
  destruct (Z.eq_dec (Z.abs z) (2 ^ 53)) as [E|E].
  - assert (generic_format radix2 (SpecFloat.fexp 53 1024) (bpow radix2 53)) as H by (by apply generic_format_FLT_bpow).
    destruct (Z.abs_spec z) as [[_ Ha]|[_ Ha]]; rewrite Ha in E.
    + rewrite E. rewrite (IZR_Zpower radix2) by done. exact H.
    + replace z with (- 2 ^ 53)%Z by lia. rewrite opp_IZR, (IZR_Zpower radix2) by done. by apply generic_format_opp.
  - apply generic_format_FLT. exists (Float radix2 z 0); [unfold F2R; simpl; lra|simpl; lia|done].
Qed.

Lemma f64_63 : fin64 (f64_of_int (2 ^ 63)) /\ fval (f64_of_int (2 ^ 63)) = bpow radix2 63.
Proof.
  destruct (f64_of_int_real (2 ^ 63)) as [Hf Hv]; [done|]. split; [done|]. rewrite Hv.
  rewrite (IZR_Zpower radix2) by done. unfold frnd. apply round_generic; [apply _|].
  by apply generic_format_FLT_bpow.
Qed.

Lemma SFeqb_false_real x y : fin64 x -> fin64 y -> SFeqb x y = false -> fval x <> fval y.
Proof.
  intros (b & -> & Fb & ->)%ffin_B (c & -> & Fc & ->)%ffin_B E.
  pose proof (Beqb_correct 53 1024 b c Fb Fc) as H. unfold Beqb in H. rewrite E in H.
  symmetry in H. by destruct (Req_bool_spec (B2R b) (B2R c)).
Qed.

Lemma SFeqb_true_real x y : fin64 x -> fin64 y -> SFeqb x y = true -> fval x = fval y.
Proof.
  intros (b & -> & Fb & ->)%ffin_B (c & -> & Fc & ->)%ffin_B E.
  pose proof (Beqb_correct 53 1024 b c Fb Fc) as H. unfold Beqb in H. rewrite E in H.
  symmetry in H. by destruct (Req_bool_spec (B2R b) (B2R c)).
Qed.

(** ** The draw *)
Lemma draw_zero r : draw 0 = Some r -> r = S754_zero false.
Proof. vm_compute. congruence. Qed.

Lemma draw_val k : (0 < k < 2 ^ 63)%N ->
  let f := SFdiv 53 1024 (f64_of_int (Z.of_N k)) (f64_of_int (2 ^ 63)) in
  fin64 f /\ bpow radix2 (-63) <= fval f <= 1 /\
  exists e, Rabs e <= powerRZ 2 (-51) /\ fval f = IZR (Z.of_N k) / powerRZ 2 63 * (1 + e).
Proof.
  intros Hk f.
  pose proof u64_pos as [U1 U2].
  destruct (f64_of_int_real (Z.of_N k)) as [F1 V1]; [lia|]. destruct f64_63 as [F2 V2].
  assert (1 <= IZR (Z.of_N k) <= bpow radix2 63) as Hb.
  { split; [apply (IZR_le 1); lia|]. rewrite <- (IZR_Zpower radix2) by done. apply IZR_le. change (radix2 ^ 63)%Z with (2 ^ 63)%Z. lia. }
  assert (1 <= fval (f64_of_int (Z.of_N k)) <= bpow radix2 63) as Hb'.
  { rewrite V1. split; [apply (rnd64_bpow_le 0); [done|apply Hb]|apply rnd64_le_bpow; [done|apply Hb]]. }
  pose proof (bpow_gt_0 radix2 63) as P63.
  set (q := fval (f64_of_int (Z.of_N k)) / fval (f64_of_int (2 ^ 63))).
  assert (bpow radix2 (-63) <= q <= bpow radix2 0) as Hq.
  { unfold q. rewrite V2. change (-63)%Z with (- (63))%Z. rewrite bpow_opp. unfold Rdiv.
    pose proof (Rinv_0_lt_compat _ P63). split.
    - rewrite <- (Rmult_1_l (/ _)) at 1. apply Rmult_le_compat_r; lra.
    - simpl (bpow radix2 0). rewrite <- (Rinv_r (bpow radix2 63)) by lra. apply Rmult_le_compat_r; lra. }
  assert (bpow radix2 (-63) <= rnd64 q <= bpow radix2 0) as Hrq.
  { split; [apply rnd64_bpow_le; [done|apply Hq]|apply rnd64_le_bpow; [done|apply Hq]]. }
  destruct (SFdiv_real 53 1024 _ _ _ _ F1 F2) as [Fd Vd].
  { rewrite V2. lra. }
  { fold q. pose proof (bpow_gt_0 radix2 (-63)). rewrite Rabs_pos_eq by lra.
    eapply Rle_lt_trans; [apply Hrq|by apply bpow_lt]. }
  fold q in Vd. fold f in Fd, Vd. split; [exact Fd|].
  split; [rewrite Vd; exact Hrq|].
  destruct (rnd64_rel (IZR (Z.of_N k))) as (e1 & He1 & Hv1).
  { rewrite Rabs_pos_eq by lra. eapply Rle_trans; [|apply Hb]. by apply (bpow_le radix2 (-1000) 0). }
  destruct (rnd64_rel q) as (e2 & He2 & Hv2).
  { pose proof (bpow_gt_0 radix2 (-63)). rewrite Rabs_pos_eq by lra. eapply Rle_trans; [|apply Hq]. by apply bpow_le. }
  exists (e1 + e2 + e1 * e2). split.
  - apply Rle_trans with (4 * u64).
    + assert (Rabs (e1 * e2) <= u64 * 1).
      { rewrite Rabs_mult. apply Rmult_le_compat; try apply Rabs_pos; lra. }
      pose proof (Rabs_triang (e1 + e2) (e1 * e2)). pose proof (Rabs_triang e1 e2). lra.
    + rewrite u64_val, powerRZ_bpow. change (-51)%Z with (2 + -53)%Z. rewrite bpow_plus. simpl (bpow radix2 2). lra.
  - rewrite Vd, Hv2. unfold q. rewrite V1, V2, Hv1, powerRZ_bpow. field. lra.
Qed.

Lemma draw_real k r : (0 < k < 2 ^ 63)%N -> draw k = Some r ->
  fin64 r /\ bpow radix2 (-63) <= fval r < 1 /\
  exists e, Rabs e <= powerRZ 2 (-51) /\ fval r = IZR (Z.of_N k) / powerRZ 2 63 * (1 + e).
Proof.
  intros Hk. destruct (draw_val k Hk) as (Hf & Hb & He). revert Hf Hb He. unfold draw. cbn zeta.
  set (f := SFdiv 53 1024 _ _). intros Hf Hb He. destruct (SFeqb f f64_one) eqn:E; [done|]. intros [= <-].
  destruct fval_one as [FO VO]. pose proof (SFeqb_false_real _ _ Hf FO E) as Hne. rewrite VO in Hne.
  split; [done|]. split; [|done]. split; [apply Hb|]. apply Rnot_le_lt. intros H. apply Hne. lra.
Qed.
Lemma draw_accept k : (0 < k < 2 ^ 63)%N ->
  IZR (Z.of_N k) / powerRZ 2 63 * (1 + powerRZ 2 (-51)) < 1 -> exists r, draw k = Some r.
Proof.
  intros Hk Hlt. destruct (draw_val k Hk) as (Hf & Hb & e & He & Hv). revert Hf Hb Hv. unfold draw. cbn zeta.
  set (f := SFdiv 53 1024 _ _). intros Hf Hb Hv. destruct (SFeqb f f64_one) eqn:E; [exfalso|by eexists].
  destruct fval_one as [FO VO]. pose proof (SFeqb_true_real _ _ Hf FO E) as Heq. rewrite VO, Hv in Heq.
  apply Rabs_le_inv in He.
  assert (0 < IZR (Z.of_N k) / powerRZ 2 63).
  { apply Rdiv_lt_0_compat; [apply (IZR_lt 0); lia|rewrite powerRZ_bpow; apply bpow_gt_0]. }
  assert (IZR (Z.of_N k) / powerRZ 2 63 * (1 + e) <= IZR (Z.of_N k) / powerRZ 2 63 * (1 + powerRZ 2 (-51))).
  { apply Rmult_le_compat_l; lra. }
  lra.
Qed.

(** ** The scaled logarithm *)
(** The relative error of the four roundings in between. *)
Definition lev_err : R := powerRZ 2 (-49).
Lemma lev_err_val : lev_err = 16 * u64.
Proof.
  unfold lev_err. rewrite powerRZ_bpow, u64_val. change (-49)%Z with (4 + -53)%Z. rewrite bpow_plus.
  simpl (bpow radix2 4). lra.
Qed.

Lemma close_mul l x : Rabs (x - l) <= powerRZ 2 (-52) * Rabs l -> exists a, Rabs a <= 2 * u64 /\ x = l * (1 + a).
Proof.
  intros H. assert (powerRZ 2 (-52) = 2 * u64) as E.
  { rewrite powerRZ_bpow, u64_val. change (-52)%Z with (1 + -53)%Z. rewrite bpow_plus. simpl (bpow radix2 1). lra. }
  rewrite E in H. pose proof u64_pos. destruct (Req_dec l 0) as [-> | Hl].
  - exists 0. rewrite Rabs_R0 in *. split; [lra|]. rewrite Rmult_0_r in H. pose proof (Rabs_pos (x - 0)).
    destruct (Req_dec (x - 0) 0) as [|Hx]; [lra|]. pose proof (Rabs_pos_lt _ Hx). lra.
  - exists ((x - l) / l). split; [|field; done]. unfold Rdiv. rewrite Rabs_mult, Rabs_inv.
    apply (Rmult_le_reg_r (Rabs l)); [by apply Rabs_pos_lt|]. rewrite Rmult_assoc, Rinv_l; [lra|].
    by apply Rabs_no_R0.
Qed.

Lemma factor_bounds a b c d :
  Rabs a <= 2 * u64 -> Rabs b <= u64 -> Rabs c <= 2 * u64 -> Rabs d <= u64 ->
  1 - lev_err <= (1 + c) * (1 + b) * (1 + d) / (1 + a) <= 1 + lev_err.
Proof.
  intros Ha%Rabs_le_inv Hb%Rabs_le_inv Hc%Rabs_le_inv Hd%Rabs_le_inv. rewrite lev_err_val.
  pose proof u64_pos as [U1 U2]. set (u := u64) in *.
  assert (1 - 4 * u <= (1 + c) * (1 + b) <= 1 + 4 * u) as H1 by nra.
  assert (1 - 6 * u <= (1 + c) * (1 + b) * (1 + d) <= 1 + 6 * u) as H2.
  { set (t := (1 + c) * (1 + b)) in *. nra. }
  set (t := (1 + c) * (1 + b) * (1 + d)) in *. unfold Rdiv. split.
  - apply (Rmult_le_reg_r (1 + a)); [lra|]. rewrite Rmult_assoc, Rinv_l by lra. nra.
  - apply (Rmult_le_reg_r (1 + a)); [lra|]. rewrite Rmult_assoc, Rinv_l by lra. nra.
Qed.

Definition lev_exact (m : Z) (r : f64) : R := - ln (fval r) / ln (fval (f64_of_int m)).

Lemma m_bounds m : (2 <= m < 2 ^ 63)%Z ->
  fin64 (f64_of_int m) /\ 2 <= fval (f64_of_int m) /\ / 2 <= ln (fval (f64_of_int m)) <= 63.
Proof.
  intros Hm. destruct (f64_of_int_real m) as [F V]; [lia|]. split; [done|].
  assert (2 <= fval (f64_of_int m)) as H2.
  { rewrite V. change 2 with (bpow radix2 1). apply rnd64_bpow_le; [done|]. simpl. apply (IZR_le 2). lia. }
  assert (fval (f64_of_int m) <= bpow radix2 63) as H3.
  { rewrite V. apply rnd64_le_bpow; [done|]. rewrite <- (IZR_Zpower radix2) by done. apply IZR_le.
    change (radix2 ^ 63)%Z with (2 ^ 63)%Z. lia. }
  split; [done|]. pose proof ln2_bounds. split.
  - pose proof (ln_mono 2 _ ltac:(lra) H2). lra.
  - assert (ln (fval (f64_of_int m)) <= ln (bpow radix2 63)) as H4 by (apply ln_mono; lra).
    rewrite ln_bpow in H4. lra.
Qed.

Lemma product_real log m r : log_ok log -> (2 <= m < 2 ^ 63)%Z ->
  fin64 r -> bpow radix2 (-63) <= fval r < 1 ->
  let p := SFmul 53 1024 (SFopp (log r)) (level_scale log m) in
  fin64 p /\ 0 <= lev_exact m r <= 63 /\ exists c, 1 - lev_err <= c <= 1 + lev_err /\ fval p = lev_exact m r * c.
Proof.
  intros HL Hm Fr Hr p. pose proof u64_pos as [U1 U2].
  destruct (m_bounds m Hm) as (Fm & M2 & Lm). set (M := fval (f64_of_int m)) in *.
  pose proof (bpow_gt_0 radix2 (-63)) as P63.
  destruct (log_close log HL (f64_of_int m) Fm) as [FL CL]; [fold M; lra|fold M; intros ?; lra|]. fold M in CL.
  destruct (log_close log HL r Fr) as [FG CG]; [lra|intros ?; lra|].
  destruct (close_mul _ _ CL) as (a & Ha & EL). destruct (close_mul _ _ CG) as (c & Hc & EG).
  pose proof (Rabs_le_inv _ _ Ha) as Ha'. pose proof (Rabs_le_inv _ _ Hc) as Hc'.
  assert (/ 4 <= fval (log (f64_of_int m)) <= 64) as BL by (rewrite EL; nra).
  set (L := fval (log (f64_of_int m))) in *.
  assert (/ 64 <= 1 / L <= 4) as BI.
  { unfold Rdiv. rewrite Rmult_1_l. split.
    - apply Rinv_le_contravar; lra.
    - rewrite <- (Rinv_inv 4). apply Rinv_le_contravar; lra. }
  destruct fval_one as [FO VO].
  destruct (SFdiv_real 53 1024 _ _ _ _ FO FL) as [FS VS].
  { fold L. lra. }
  { fold L. rewrite VO. apply rnd64_ok. rewrite Rabs_pos_eq by lra. apply Rle_trans with (bpow radix2 2); [simpl; lra|by apply bpow_le]. }
  fold L in VS. rewrite VO in VS. fold (level_scale log m) in FS, VS.
  destruct (rnd64_rel (1 / L)) as (b & Hb & EB).
  { rewrite Rabs_pos_eq by lra. apply Rle_trans with (bpow radix2 (-6)); [by apply bpow_le|simpl; lra]. }
  rewrite EB in VS. pose proof (Rabs_le_inv _ _ Hb) as Hb'.
  assert (/ 128 <= fval (level_scale log m) <= 8) as BS by (rewrite VS; nra).
  (* - ln r *)
  assert (u64 <= - ln (fval r) <= 63 * ln 2) as BR.
  { split.
    - pose proof (below_one r Fr ltac:(lra)). pose proof (ln_le_sub (fval r) ltac:(lra)). lra.
    - pose proof (ln_mono _ _ P63 (proj1 Hr)) as H. rewrite ln_bpow in H. lra. }
  pose proof ln2_bounds as L2.
  destruct (SFopp_fin _ _ _ FG) as [FN VN].
  set (S := fval (level_scale log m)) in *. set (g := - ln (fval r)) in *.
  assert (fval (SFopp (log r)) = g * (1 + c)) as EN by (rewrite VN, EG; unfold g; ring).
  assert (u64 / 2 <= g * (1 + c) <= 126) as BN by nra.
  assert (u64 / 256 <= fval (SFopp (log r)) * S <= 1008) as BP.
  { rewrite EN. split.
    - replace (u64 / 256) with (u64 / 2 * (/ 128)) by field. apply Rmult_le_compat; lra.
    - replace 1008 with (126 * 8) by ring. apply Rmult_le_compat; lra. }
  destruct (SFmul_real 53 1024 _ _ _ _ FN FS) as [FP VP].
  { fold S. apply rnd64_ok. rewrite Rabs_pos_eq by lra. apply Rle_trans with (bpow radix2 10); [simpl; lra|by apply bpow_le]. }
  fold p in FP, VP. fold S in VP. split; [exact FP|]. split.
  - unfold lev_exact. fold g M. unfold Rdiv. assert (0 < / ln M) by (apply Rinv_0_lt_compat; lra). split.
    + apply Rmult_le_pos; lra.
    + apply (Rmult_le_reg_r (ln M)); [lra|]. rewrite Rmult_assoc, Rinv_l by lra.
      assert (ln 2 <= ln M) by (apply ln_mono; lra). nra.
  - destruct (rnd64_rel (fval (SFopp (log r)) * S)) as (d & Hd & ED).
    { rewrite Rabs_pos_eq by lra. apply Rle_trans with (u64 / 256); [|apply BP]. rewrite u64_val.
      apply Rle_trans with (bpow radix2 (-8 + -53)); [by apply bpow_le|]. rewrite bpow_plus. simpl (bpow radix2 (-8)).
      pose proof (bpow_gt_0 radix2 (-53)). lra. }
    exists ((1 + c) * (1 + b) * (1 + d) / (1 + a)). split; [by apply factor_bounds|].
    rewrite VP, ED, EN, VS. rewrite EL. unfold lev_exact. fold g M. field. lra.
Qed.

(** ** Floor and conversion *)
Lemma f64_floor_real x : fin64 x -> f64_floor x = Zfloor (fval x).
Proof.
  intros [_ Hf]. destruct x as [s|s| |s m e]; try done.
  - unfold fval. simpl. by rewrite Zfloor_IZR.
  - unfold fval. cbn [SF2R f64_floor]. unfold F2R. cbn [Fnum Fexp]. destruct (Z.leb_spec 0 e).
    + rewrite <- IZR_Zpower by done. rewrite <- mult_IZR. by rewrite Zfloor_IZR.
    + replace (bpow radix2 e) with (/ IZR (2 ^ (- e))).
      * symmetry. apply Zfloor_div. lia.
      * change 2%Z with (radix_val radix2). rewrite IZR_Zpower by lia. rewrite bpow_opp. by rewrite Rinv_inv.
Qed.

Lemma choose_level_real log bad m r : log_ok log -> (2 <= m < 2 ^ 63)%Z ->
  fin64 r -> bpow radix2 (-63) <= fval r < 1 ->
  exists l, choose_level log bad m r = Val l /\ (l <= 63)%nat /\
    INR l <= lev_exact m r * (1 + lev_err) /\ lev_exact m r * (1 - lev_err) < INR l + 1.
Proof.
  intros HL Hm Fr Hr. destruct (product_real log m r HL Hm Fr Hr) as (FP & Hx & c & Hc & VP). cbn zeta in *.
  set (p := SFmul 53 1024 (SFopp (log r)) (level_scale log m)) in *. set (x := lev_exact m r) in *.
  pose proof u64_pos as [U1 U2]. pose proof lev_err_val as EV.
  assert (0 <= fval p < 64) as Hp by (rewrite VP; nra).
  pose proof (Zfloor_lb (fval p)) as Hlb. pose proof (Zfloor_ub (fval p)) as Hub.
  assert (0 <= Zfloor (fval p) < 64)%Z as Hz.
  { split; [apply Zfloor_lub; lra|]. apply lt_IZR. lra. }
  assert (level_for_vertex log bad m r = Zfloor (fval p)) as El.
  { unfold level_for_vertex. fold p. unfold f64_to_int64. rewrite f64_floor_real by done.
    destruct FP as [_ FP]. assert ((- 2 ^ 63 <=? Zfloor (fval p)) && (Zfloor (fval p) <? 2 ^ 63) = true)%Z as -> by lia.
    by destruct p. }
  exists (Z.to_nat (Zfloor (fval p))). rewrite INR_IZR_INZ, Z2Nat.id by lia. split.
  - unfold choose_level. rewrite El. unfold wrap64. rewrite Z.mod_small by lia.
    replace (Zfloor (fval p) + 1 + 2 ^ 63 - 2 ^ 63)%Z with (Zfloor (fval p) + 1)%Z by lia.
    assert ((Zfloor (fval p) + 1 <? 0) || (make_limit <? Zfloor (fval p) + 1) = false)%Z as ->.
    { change make_limit with 11728124029610%Z. lia. }
    assert (Zfloor (fval p) + 1 =? 0 = false)%Z as -> by lia. do 2 f_equal. lia.
  - split; [lia|]. assert (x * (1 - lev_err) <= fval p <= x * (1 + lev_err)) by (rewrite VP; split; apply Rmult_le_compat_l; lra). lra.
Qed.

(** ** Where no level results *)
Lemma bad_pans bad n : (bad = - 2 ^ 63 \/ bad = 2 ^ 63 - 1)%Z -> n = wrap64 (bad + 1) ->
  (n <? 0)%Z || (make_limit <? n)%Z = true.
Proof. intros [-> | ->] ->; reflexivity. Qed.

Lemma choose_inf log bad m r : (bad = - 2 ^ 63 \/ bad = 2 ^ 63 - 1)%Z ->
  SFmul 53 1024 (SFopp (log r)) (level_scale log m) = S754_infinity false ->
  choose_level log bad m r = Pan PMake.
Proof.
  intros Hb E. unfold choose_level, level_for_vertex. rewrite E. cbn [f64_to_int64].
  by rewrite (bad_pans bad _ Hb eq_refl).
Qed.

Lemma scale_one log : log_ok log -> level_scale log 1 = S754_infinity false.
Proof. intros HL. unfold level_scale. change (f64_of_int 1) with f64_one. by rewrite (log_one _ HL). Qed.

Lemma fin_pos_shape p e x : ffin p e x -> 0 < fval x -> exists m ex, x = S754_finite false m ex.
Proof.
  intros [_ Hf] Hp. destruct x as [s|s| |s m ex]; try done.
  - unfold fval in Hp. simpl in Hp. lra.
  - destruct s; [|by eexists _, _]. exfalso. unfold fval in Hp. cbn [SF2R cond_Zopp] in Hp.
    assert (H : F2R (Float radix2 (Z.neg m) ex) < 0) by (by apply F2R_lt_0). change (- Z.pos m)%Z with (Z.neg m) in Hp. exact (Rlt_irrefl _ (Rlt_trans _ _ _ Hp H)).
Qed.

Lemma scale_pos log m : log_ok log -> (2 <= m < 2 ^ 63)%Z ->
  exists mm e, level_scale log m = S754_finite false mm e.
Proof.
  intros HL Hm. pose proof u64_pos as [U1 U2].
  destruct (m_bounds m Hm) as (Fm & M2 & Lm). set (M := fval (f64_of_int m)) in *.
  destruct (log_close log HL (f64_of_int m) Fm) as [FL CL]; [fold M; lra|fold M; intros ?; lra|]. fold M in CL.
  destruct (close_mul _ _ CL) as (a & Ha & EL). pose proof (Rabs_le_inv _ _ Ha) as Ha'.
  assert (/ 4 <= fval (log (f64_of_int m)) <= 64) as BL by (rewrite EL; nra).
  set (L := fval (log (f64_of_int m))) in *.
  assert (/ 64 <= 1 / L <= 4) as BI.
  { unfold Rdiv. rewrite Rmult_1_l. split.
    - apply Rinv_le_contravar; lra.
    - rewrite <- (Rinv_inv 4). apply Rinv_le_contravar; lra. }
  destruct fval_one as [FO VO].
  destruct (SFdiv_real 53 1024 _ _ _ _ FO FL) as [FS VS].
  { fold L. lra. }
  { fold L. rewrite VO. apply rnd64_ok. rewrite Rabs_pos_eq by lra. apply Rle_trans with (bpow radix2 2); [simpl; lra|by apply bpow_le]. }
  fold L in VS. rewrite VO in VS. fold (level_scale log m) in FS, VS.
  apply (fin_pos_shape _ _ _ FS). rewrite VS. apply Rlt_le_trans with (bpow radix2 (-6)); [apply bpow_gt_0|].
  apply rnd64_bpow_le; [done|]. simpl. lra.
Qed.

Lemma choose_zero log bad m : log_ok log -> (bad = - 2 ^ 63 \/ bad = 2 ^ 63 - 1)%Z -> (1 <= m < 2 ^ 63)%Z ->
  choose_level log bad m (S754_zero false) = Pan PMake.
Proof.
  intros HL Hb Hm. apply choose_inf; [done|]. rewrite (log_zero _ HL).
  destruct (Z.eq_dec m 1) as [-> | Hne]; [by rewrite scale_one|].
  destruct (scale_pos log m HL ltac:(lia)) as (mm & e & ->). done.
Qed.

Lemma choose_one log bad k r : log_ok log -> (bad = - 2 ^ 63 \/ bad = 2 ^ 63 - 1)%Z -> (k < 2 ^ 63)%N ->
  draw k = Some r -> choose_level log bad 1 r = Pan PMake.
Proof.
  intros HL Hb Hk Hd. destruct (N.eq_dec k 0) as [-> | Hne].
  { rewrite (draw_zero r Hd). by apply choose_zero. }
  apply choose_inf; [done|]. rewrite scale_one by done.
  destruct (draw_real k r ltac:(lia) Hd) as (Fr & Hr & _). pose proof (bpow_gt_0 radix2 (-63)).
  destruct (log_close log HL r Fr) as [FG CG]; [lra|intros ?; lra|].
  destruct (close_mul _ _ CG) as (c & Hc & EG). pose proof (Rabs_le_inv _ _ Hc). pose proof u64_pos as [U1 U2].
  pose proof (below_one r Fr ltac:(lra)). pose proof (ln_le_sub (fval r) ltac:(lra)).
  destruct (SFopp_fin _ _ _ FG) as [FN VN].
  destruct (fin_pos_shape _ _ _ FN) as (mm & e & ->); [|done]. rewrite VN, EG. nra.
Qed.

(** ** How many draws give a level *)
Definition frac_err : R := powerRZ 2 (-42).
Lemma small_vals : frac_err = 2048 * u64 /\ powerRZ 2 (-51) = 4 * u64.
Proof.
  unfold frac_err. rewrite !powerRZ_bpow, u64_val. split.
  - change (-42)%Z with (11 + -53)%Z. rewrite bpow_plus. simpl (bpow radix2 11). lra.
  - change (-51)%Z with (2 + -53)%Z. rewrite bpow_plus. simpl (bpow radix2 2). lra.
Qed.
Lemma ln_pow_m x n : 0 < x -> ln (x ^ n) = INR n * ln x.
Proof. intros H. by rewrite ln_pow. Qed.
Lemma u64_tiny : u64 <= / 1000000.
Proof.
  rewrite u64_val. apply Rle_trans with (bpow radix2 (-20)); [by apply bpow_le|]. simpl. lra.
Qed.

Lemma r_log_bound r : fin64 r -> bpow radix2 (-63) <= fval r < 1 -> 0 <= - ln (fval r) <= 63.
Proof.
  intros Fr Hr. pose proof (bpow_gt_0 radix2 (-63)) as P. pose proof ln2_bounds.
  pose proof (ln_mono _ _ P (proj1 Hr)) as H1. rewrite ln_bpow in H1.
  pose proof (ln_le_sub (fval r) ltac:(lra)). lra.
Qed.

Lemma level_upper log bad m k r l lev : log_ok log -> (2 <= m <= 2 ^ 53)%Z -> (0 < k < 2 ^ 63)%N ->
  draw k = Some r -> choose_level log bad m r = Val lev -> (l <= lev)%nat ->
  IZR (Z.of_N k) <= powerRZ 2 63 * (1 + frac_err) / IZR m ^ l.
Proof.
  intros HL Hm Hk Hd Hc Hl. destruct (draw_real k r Hk Hd) as (Fr & Hr & e & He & Ev).
  destruct (choose_level_real log bad m r HL ltac:(lia) Fr Hr) as (lev' & Hc' & _ & Hup & _).
  rewrite Hc in Hc'. injection Hc' as <-.
  destruct small_vals as [E1 E2]. pose proof u64_pos as [U1 _]. pose proof u64_tiny as U2. pose proof lev_err_val as E3.
  pose proof (bpow_gt_0 radix2 (-63)) as P. destruct (r_log_bound r Fr Hr) as [G1 G2].
  assert (2 <= IZR m) as M2 by (apply (IZR_le 2); lia).
  unfold lev_exact in Hup. rewrite f64_of_int_exact in Hup by lia.
  assert (0 < ln (IZR m)) as Lm. { pose proof (ln_mono 2 _ ltac:(lra) M2). pose proof ln2_bounds. lra. }
  assert (INR l * ln (IZR m) <= - ln (fval r) + 63 * lev_err) as H1.
  { assert (INR l <= INR lev) as Hi by (by apply le_INR).
    assert (INR l * ln (IZR m) <= - ln (fval r) / ln (IZR m) * (1 + lev_err) * ln (IZR m)) as H.
    { apply Rmult_le_compat_r; lra. }
    replace (- ln (fval r) / ln (IZR m) * (1 + lev_err) * ln (IZR m)) with (- ln (fval r) * (1 + lev_err)) in H by (field; lra).
    nra. }
  assert (0 < IZR m ^ l) as Pm by (apply pow_lt; lra).
  assert (fval r * IZR m ^ l * (1 - 63 * lev_err) <= 1) as H2.
  { assert (0 < fval r) as Pr by lra.
    assert (ln (fval r * IZR m ^ l) <= 63 * lev_err) as H.
    { rewrite ln_mult, ln_pow_m by lra. lra. }
    pose proof (exp_ineq1_le (- (63 * lev_err))) as Hx.
    apply Rle_trans with (exp (63 * lev_err) * exp (- (63 * lev_err))).
    - apply Rmult_le_compat; [|lra| |lra].
      + apply Rmult_le_pos; lra.
      + rewrite <- (exp_ln (fval r * IZR m ^ l)) by (by apply Rmult_lt_0_compat).
        destruct H as [H | ->]; [left; by apply exp_increasing|right; done].
    - rewrite <- exp_plus, Rplus_opp_r, exp_0. lra. }
  apply Rabs_le_inv in He. rewrite E2 in He. rewrite E1. rewrite E3 in H2. unfold Rdiv.
  apply (Rmult_le_reg_r (IZR m ^ l)); [done|]. rewrite Rmult_assoc, Rinv_l by lra. rewrite Rmult_1_r.
  assert (0 < powerRZ 2 63) as P63 by (rewrite powerRZ_bpow; apply bpow_gt_0).
  apply (Rmult_le_reg_r (/ powerRZ 2 63)); [by apply Rinv_0_lt_compat|].
  replace (powerRZ 2 63 * (1 + 2048 * u64) * / powerRZ 2 63) with (1 + 2048 * u64) by (field; lra).
  set (y := IZR (Z.of_N k) * IZR m ^ l * / powerRZ 2 63).
  assert (fval r * IZR m ^ l = y * (1 + e)) as Ey by (rewrite Ev; unfold y; field; lra).
  rewrite Ey in H2. assert (0 <= y) as Hy.
  { unfold y. apply Rmult_le_pos; [apply Rmult_le_pos; [apply (IZR_le 0); lia|lra]|left; by apply Rinv_0_lt_compat]. }
  assert (y * (1 - 2000 * u64) <= 1) as H3.
  { eapply Rle_trans; [|exact H2]. rewrite Rmult_assoc. apply Rmult_le_compat_l; [done|]. nra. }
  apply (Rmult_le_reg_r (1 - 2000 * u64)); [lra|]. eapply Rle_trans; [exact H3|].
  assert (0 <= u64 * (48 - 4096000 * u64)); [apply Rmult_le_pos; lra|]. lra.
Qed.

Lemma level_lower log bad m k l : log_ok log -> (2 <= m <= 2 ^ 53)%Z -> (0 < k)%N ->
  IZR (Z.of_N k) <= powerRZ 2 63 * (1 - frac_err) / IZR m ^ l ->
  (k < 2 ^ 63)%N /\ exists r lev, draw k = Some r /\ choose_level log bad m r = Val lev /\ (l <= lev)%nat.
Proof.
  intros HL Hm Hk0 Hk. destruct small_vals as [E1 E2]. pose proof u64_pos as [U1 _]. pose proof u64_tiny as U2.
  pose proof lev_err_val as E3. assert (2 <= IZR m) as M2 by (apply (IZR_le 2); lia).
  assert (0 < ln (IZR m)) as Lm. { pose proof (ln_mono 2 _ ltac:(lra) M2). pose proof ln2_bounds. lra. }
  assert (1 <= IZR m ^ l) as Pm by (apply pow_R1_Rle; lra).
  assert (0 < powerRZ 2 63) as P63 by (rewrite powerRZ_bpow; apply bpow_gt_0).
  set (y := IZR (Z.of_N k) / powerRZ 2 63).
  assert (0 < y) as Hy. { apply Rdiv_lt_0_compat; [apply (IZR_lt 0); lia|done]. }
  assert (y * IZR m ^ l <= 1 - frac_err) as H1.
  { apply (Rmult_le_compat_r (IZR m ^ l * / powerRZ 2 63)) in Hk; [|apply Rmult_le_pos; [lra|left; by apply Rinv_0_lt_compat]].
    replace (powerRZ 2 63 * (1 - frac_err) / IZR m ^ l * (IZR m ^ l * / powerRZ 2 63)) with (1 - frac_err) in Hk by (field; lra).
    unfold y, Rdiv. lra. }
  assert (y <= 1 - frac_err) as H2 by nra.
  assert (k < 2 ^ 63)%N as Hk2.
  { assert (IZR (Z.of_N k) < IZR (2 ^ 63)) as H; [|apply lt_IZR in H; lia].
    rewrite (IZR_Zpower radix2) by done. rewrite <- powerRZ_bpow.
    apply (Rmult_lt_reg_r (/ powerRZ 2 63)); [by apply Rinv_0_lt_compat|]. rewrite Rinv_r by lra. unfold y, Rdiv in H2. lra. }
  split; [done|]. assert (0 < k < 2 ^ 63)%N as Hk' by lia.
  destruct (draw_accept k Hk') as [r Hd].
  { fold y. rewrite E2. nra. }
  destruct (draw_real k r Hk' Hd) as (Fr & Hr & e & He & Ev). fold y in Ev.
  destruct (choose_level_real log bad m r HL ltac:(lia) Fr Hr) as (lev & Hc & _ & _ & Hlo).
  exists r, lev. split; [done|]. split; [done|].
  destruct (r_log_bound r Fr Hr) as [G1 G2]. unfold lev_exact in Hlo. rewrite f64_of_int_exact in Hlo by lia.
  apply Rabs_le_inv in He. rewrite E2 in He. rewrite E1 in H1.
  assert (INR l * ln (IZR m) <= - ln (fval r) - 2044 * u64) as H3.
  { assert (ln (fval r * IZR m ^ l) <= - (2044 * u64)) as H.
    { rewrite Ev. replace (y * (1 + e) * IZR m ^ l) with (y * IZR m ^ l * (1 + e)) by ring.
      rewrite ln_mult by (try apply Rmult_lt_0_compat; lra).
      assert (ln (y * IZR m ^ l) <= y * IZR m ^ l - 1) by (apply ln_le_sub; apply Rmult_lt_0_compat; lra).
      assert (ln (1 + e) <= 1 + e - 1) by (apply ln_le_sub; lra). lra. }
    pose proof (bpow_gt_0 radix2 (-63)). rewrite ln_mult, ln_pow_m in H by lra. lra. }
  assert (INR l <= - ln (fval r) / ln (IZR m) * (1 - lev_err)) as H4.
  { apply (Rmult_le_reg_r (ln (IZR m))); [done|].
    replace (- ln (fval r) / ln (IZR m) * (1 - lev_err) * ln (IZR m)) with (- ln (fval r) * (1 - lev_err)) by (field; lra).
    rewrite E3. nra. }
  assert (INR l < INR (S lev)) as H5 by (rewrite S_INR; lra). apply INR_lt in H5. lia.
Qed.
