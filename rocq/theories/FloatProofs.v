(** Facts about the float32 comparison and arithmetic used by the distances. *)
From Verif Require Import GoBase FloatModel ProofBase.
From Coq Require Import SpecFloat.
Open Scope nat_scope.

(** ** Comparison: a total preorder on the values that are not NaN *)
Definition is_nan (x : fl) : bool := match x with S754_nan => true | _ => false end.
Definition num (x : fl) : Prop := is_nan x = false.

(** A lexicographic key that orders the non-NaN values. *)
Definition fkey (x : fl) : Z * Z * Z :=
  match x with
  | S754_nan => (0, 0, 0)
  | S754_infinity true => (-2, 0, 0)
  | S754_finite true m e => (-1, - e, Zneg m)
  | S754_zero _ => (0, 0, 0)
  | S754_finite false m e => (1, e, Zpos m)
  | S754_infinity false => (2, 0, 0)
  end%Z.

Definition klt (a b : Z * Z * Z) : Prop :=
  let '(a1, a2, a3) := a in
  let '(b1, b2, b3) := b in
  (a1 < b1 \/ (a1 = b1 /\ (a2 < b2 \/ (a2 = b2 /\ a3 < b3))))%Z.

Lemma fltb_klt x y : num x -> num y -> fltb x y = true <-> klt (fkey x) (fkey y).
Proof.
  unfold num, fltb, SFltb. intros Hx Hy.
  destruct x as [sx|sx| |sx mx ex], y as [sy|sy| |sy my ey]; try done;
    destruct sx, sy; cbn [SFcompare fkey klt is_nan]; try (split; [done|lia]); try (split; [lia|done]).
  all: destruct (Z.compare_spec ex ey) as [He|He|He]; try (split; [done|lia]); try (split; [lia|done]).
  all: rewrite Pos.compare_cont_spec || idtac.
  all: change (Pos.compare_cont Eq mx my) with (Pos.compare mx my).
  all: destruct (Pos.compare_spec mx my) as [Hm|Hm|Hm]; cbn [CompOpp]; try (split; [done|lia]);
    try (split; [lia|done]).
Qed.

Lemma fltb_irrefl x : fltb x x = false.
Proof.
  destruct (is_nan x) eqn:Hn; [by destruct x|].
  apply not_true_is_false. rewrite fltb_klt by done. destruct (fkey x) as [[??]?]. cbn [klt]. lia.
Qed.

Lemma fltb_asym x y : fltb x y = true -> fltb y x = false.
Proof.
  intros H. destruct (is_nan x) eqn:Hx; [by destruct x|].
  destruct (is_nan y) eqn:Hy; [by destruct x, y|].
  apply not_true_is_false. rewrite fltb_klt in * by done.
  destruct (fkey x) as [[??]?], (fkey y) as [[??]?]. cbn [klt] in *. lia.
Qed.

Lemma fltb_num x y : fltb x y = true -> num x /\ num y.
Proof. destruct x, y; unfold fltb, SFltb, num; cbn; intros; try done; by destruct s. Qed.

Lemma fltb_trans x y z : fltb x y = true -> fltb y z = true -> fltb x z = true.
Proof.
  intros H1 H2. pose proof (fltb_num _ _ H1) as [Hx Hy]. pose proof (fltb_num _ _ H2) as [_ Hz].
  rewrite fltb_klt in * by done.
  destruct (fkey x) as [[??]?], (fkey y) as [[??]?], (fkey z) as [[??]?]. cbn [klt] in *. lia.
Qed.

(** On numbers "not less" is transitive. *)
Lemma fltb_ntrans x y z :
  num x -> num y -> num z -> fltb x y = false -> fltb y z = false -> fltb x z = false.
Proof.
  intros Hx Hy Hz H1 H2. apply not_true_is_false. intros H3.
  apply not_true_iff_false in H1, H2. rewrite fltb_klt in * by done.
  destruct (fkey x) as [[??]?], (fkey y) as [[??]?], (fkey z) as [[??]?]. cbn [klt] in *. lia.
Qed.

(** ** Sign and NaN analysis of the rounding functions *)

(** Non-negative: +0, positive finite, +infinity. *)
Definition nonneg (x : fl) : Prop :=
  match x with
  | S754_nan => False
  | S754_zero s | S754_infinity s | S754_finite s _ _ => s = false
  end.
Definition nonneg_or_nan (x : fl) : Prop := x = S754_nan \/ nonneg x.
Definition finite (x : fl) : Prop :=
  match x with S754_nan | S754_infinity _ => False | _ => True end.

Lemma iter_pos_inv {A} (Q : A -> Prop) (f : A -> A) p x :
  (forall y, Q y -> Q (f y)) -> Q x -> Q (iter_pos f p x).
Proof.
  intros Hf. revert x. induction p as [p IH|p IH|]; intros x Hx; cbn [iter_pos]; auto.
Qed.

Lemma shr_1_nonneg mrs : (0 <= shr_m mrs)%Z -> (0 <= shr_m (shr_1 mrs))%Z.
Proof. destruct mrs as [m r s]. destruct m as [|[p|p|]|p]; cbn; lia. Qed.

Lemma shr_record_of_loc_m m l : shr_m (shr_record_of_loc m l) = m.
Proof. by destruct l as [|[]]. Qed.

Lemma shr_nonneg mrs e n : (0 <= shr_m mrs)%Z -> (0 <= shr_m (fst (shr mrs e n)))%Z.
Proof.
  intros H. destruct n as [|p|p]; cbn [shr fst]; try done.
  apply (iter_pos_inv (fun r => 0 <= shr_m r)%Z); [apply shr_1_nonneg|done].
Qed.

Lemma shr_fexp_nonneg prec emax m e l :
  (0 <= m)%Z -> (0 <= shr_m (fst (shr_fexp prec emax m e l)))%Z.
Proof. intros. unfold shr_fexp. apply shr_nonneg. by rewrite shr_record_of_loc_m. Qed.

Lemma round_nearest_even_nonneg m l : (0 <= m)%Z -> (0 <= round_nearest_even m l)%Z.
Proof. intros. destruct l as [|[]]; cbn [round_nearest_even]; try lia. destruct (Z.even m); lia. Qed.

(** Rounding gives a number whose sign is the given one. *)
Definition has_sign (sx : bool) (x : fl) : Prop :=
  match x with
  | S754_nan => False
  | S754_zero s | S754_infinity s | S754_finite s _ _ => s = sx
  end.

Lemma binary_round_aux_sign prec emax sx m e l :
  (0 <= m)%Z -> has_sign sx (binary_round_aux prec emax sx m e l).
Proof.
  intros Hm. unfold binary_round_aux.
  pose proof (shr_fexp_nonneg prec emax m e l Hm) as H1.
  destruct (shr_fexp prec emax m e l) as [mrs1 e1]. cbn [fst] in H1.
  pose proof (shr_fexp_nonneg prec emax _ e1 loc_Exact
    (round_nearest_even_nonneg _ (loc_of_shr_record mrs1) H1)) as H2.
  destruct (shr_fexp prec emax _ e1 loc_Exact) as [mrs2 e2]. cbn [fst] in H2.
  destruct (shr_m mrs2); cbn [has_sign]; try done; try lia. by destruct (Z.leb e2 (emax - prec)).
Qed.

Lemma binary_round_sign prec emax sx m e : has_sign sx (binary_round prec emax sx m e).
Proof.
  unfold binary_round. destruct (shl_align _ _ _) as [mz ez]. by apply binary_round_aux_sign.
Qed.

(** Flipping the sign of the input flips the sign of the result only. *)
Lemma binary_round_aux_opp prec emax sx m e l :
  binary_round_aux prec emax (negb sx) m e l = SFopp (binary_round_aux prec emax sx m e l).
Proof.
  unfold binary_round_aux. destruct (shr_fexp prec emax m e l) as [mrs1 e1].
  destruct (shr_fexp prec emax _ e1 loc_Exact) as [mrs2 e2].
  destruct (shr_m mrs2); try done. by destruct (Z.leb e2 (emax - prec)).
Qed.

Lemma binary_round_opp prec emax sx m e :
  binary_round prec emax (negb sx) m e = SFopp (binary_round prec emax sx m e).
Proof. unfold binary_round. destruct (shl_align _ _ _) as [mz ez]. apply binary_round_aux_opp. Qed.

Lemma binary_normalize_opp prec emax m e sz :
  m <> 0%Z -> binary_normalize prec emax (- m) e sz = SFopp (binary_normalize prec emax m e sz).
Proof.
  intros Hm. destruct m as [|p|p]; [done| |]; cbn [binary_normalize Z.opp].
  - apply (binary_round_opp _ _ false).
  - rewrite <- (binary_round_opp _ _ true). done.
Qed.

(** ** The operations *)
Lemma fmul_comm x y : fmul x y = fmul y x.
Proof.
  unfold fmul. destruct x as [sx|sx| |sx mx ex], y as [sy|sy| |sy my ey]; cbn [SFmul]; try done;
    rewrite (xorb_comm sx sy); try done.
  by rewrite Pos.mul_comm, Z.add_comm.
Qed.

Lemma fmul_opp_opp x : fmul (SFopp x) (SFopp x) = fmul x x.
Proof. unfold fmul. destruct x as [[]|[]| |[] m e]; done. Qed.

(** x - y and y - x have the same square. *)
Lemma fsub_swap x y : fsub x y = fsub y x \/ fsub x y = SFopp (fsub y x).
Proof.
  unfold fsub. destruct x as [sx|sx| |sx mx ex], y as [sy|sy| |sy my ey]; cbn [SFsub SFopp].
  all: try (by left).
  all: try (destruct sx, sy; cbn; by (left + right)).
  all: try (right; by rewrite ?negb_involutive).
  rewrite (Z.min_comm ey ex).
  set (a := cond_Zopp sx _). set (b := cond_Zopp sy _).
  destruct (Z.eq_dec b a) as [->|Hne]; [left; by f_equal|right].
  rewrite <- binary_normalize_opp by lia. f_equal. lia.
Qed.

Lemma fsquare_swap x y : fmul (fsub x y) (fsub x y) = fmul (fsub y x) (fsub y x).
Proof. destruct (fsub_swap x y) as [->| ->]; [done|]. apply fmul_opp_opp. Qed.

Lemma binary_normalize_zero prec emax e : binary_normalize prec emax 0 e false = S754_zero false.
Proof. done. Qed.

Lemma fsub_self x : finite x -> fsub x x = fzero.
Proof.
  unfold fsub. destruct x as [[]|[]| |s m e]; cbn [finite SFsub]; try done.
  intros _. by rewrite Z.sub_diag.
Qed.

(** Differences of finite numbers are numbers. *)
Lemma fsub_num x y : finite x -> finite y -> num (fsub x y).
Proof.
  unfold fsub, num. destruct x as [sx|sx| |sx mx ex], y as [sy|sy| |sy my ey]; cbn [finite SFsub]; try done.
  - intros _ _. by destruct sx, sy.
  - intros _ _. set (d := Z.sub _ _). destruct d as [|p|p]; cbn [binary_normalize]; try done.
    + pose proof (binary_round_sign 24 128 false p (Z.min ex ey)) as H. by destruct (binary_round _ _ _ _ _).
    + pose proof (binary_round_sign 24 128 true p (Z.min ex ey)) as H. by destruct (binary_round _ _ _ _ _).
Qed.

Lemma has_sign_nonneg x : has_sign false x -> nonneg x.
Proof. done. Qed.

(** A square is never negative; the square of a number is a number. *)
Lemma fsquare_nonneg x : num x -> nonneg (fmul x x).
Proof.
  unfold fmul, num. destruct x as [s|s| |s m e]; cbn [SFmul nonneg is_nan]; try done; intros _.
  - by destruct s.
  - by destruct s.
  - rewrite xorb_nilpotent. apply has_sign_nonneg. by apply binary_round_aux_sign.
Qed.
Lemma fsquare_nonneg_or_nan x : nonneg_or_nan (fmul x x).
Proof. destruct (is_nan x) eqn:H; [left; by destruct x|right; by apply fsquare_nonneg]. Qed.

Lemma fadd_nonneg x y : nonneg x -> nonneg y -> nonneg (fadd x y).
Proof.
  unfold fadd. destruct x as [sx|sx| |sx mx ex], y as [sy|sy| |sy my ey]; cbn [nonneg SFadd]; try done;
    intros -> ->; try done.
  set (m := Z.add _ _). assert (0 < m)%Z as Hm by (unfold m, cond_Zopp; lia).
  destruct m as [|p|p]; [lia| |lia]. cbn [binary_normalize].
  apply has_sign_nonneg, binary_round_sign.
Qed.
Lemma fadd_nan_l y : fadd S754_nan y = S754_nan.
Proof. by destruct y. Qed.
Lemma fadd_nan_r x : fadd x S754_nan = S754_nan.
Proof. by destruct x. Qed.
Lemma fadd_nonneg_or_nan x y : nonneg_or_nan x -> nonneg_or_nan y -> nonneg_or_nan (fadd x y).
Proof.
  intros [->|Hx] [->|Hy]; unfold nonneg_or_nan; rewrite ?fadd_nan_l, ?fadd_nan_r; try (by left).
  right. by apply fadd_nonneg.
Qed.

Lemma fconv_nonneg prec emax x : nonneg x -> nonneg (fconv prec emax x).
Proof.
  destruct x as [s|s| |s m e]; cbn [nonneg fconv]; try done. intros ->. cbn [cond_Zopp binary_normalize].
  apply has_sign_nonneg, binary_round_sign.
Qed.
Lemma fsqrt64_nonneg x : nonneg x -> nonneg (SFsqrt 53 1024 x).
Proof.
  destruct x as [s|s| |s m e]; cbn [nonneg SFsqrt]; try done; intros ->; try done.
  unfold SFsqrt_core_binary. set (m' := match _ with Z0 => _ | _ => _ end).
  destruct (Z.sqrtrem m') as [q r] eqn:Hq.
  apply has_sign_nonneg, binary_round_aux_sign.
  assert (q = fst (Z.sqrtrem m')) as -> by (by rewrite Hq).
  rewrite Z.sqrtrem_sqrt. apply Z.sqrt_nonneg.
Qed.
Lemma fsqrt32_nonneg x : nonneg x -> nonneg (fsqrt32 x).
Proof. intros. unfold fsqrt32. by apply fconv_nonneg, fsqrt64_nonneg, fconv_nonneg. Qed.

Lemma nonneg_num x : nonneg x -> num x.
Proof. by destruct x. Qed.
Lemma nonneg_not_lt_zero x : nonneg_or_nan x -> fltb x fzero = false.
Proof. intros [->|H]; [done|]. destruct x as [s|s| |s m e]; cbn in *; try done; by subst. Qed.

(** ** Euclidean distance *)
Definition vfinite (v : fvec) : Prop := Forall (fun f => finite (f32_val f)) v.

Lemma euclid_loop_len v1 v2 sum :
  (exists r, euclid_loop v1 v2 sum = Val r) <-> length v1 <= length v2.
Proof.
  revert v2 sum; induction v1 as [|a v1 IH]; intros v2 sum; cbn [euclid_loop length].
  - split; [lia|by eexists].
  - destruct v2 as [|b v2]; cbn [length]; [split; [by intros [??]|lia]|].
    rewrite IH. lia.
Qed.
Lemma euclid_loop_pan v1 v2 sum :
  length v2 < length v1 -> euclid_loop v1 v2 sum = Pan PIndex.
Proof.
  revert v2 sum; induction v1 as [|a v1 IH]; intros v2 sum Hl; cbn [euclid_loop length] in *; [lia|].
  destruct v2 as [|b v2]; [done|]. apply IH. cbn [length] in Hl. lia.
Qed.

Lemma euclid_loop_sym v1 v2 sum :
  length v1 = length v2 -> euclid_loop v1 v2 sum = euclid_loop v2 v1 sum.
Proof.
  revert v2 sum; induction v1 as [|a v1 IH]; intros [|b v2] sum Hl; cbn [euclid_loop length] in *; try done.
  rewrite fsquare_swap. apply IH. lia.
Qed.
Lemma euclidean_sym v1 v2 : length v1 = length v2 -> euclidean v1 v2 = euclidean v2 v1.
Proof. intros. unfold euclidean. by rewrite euclid_loop_sym. Qed.

Lemma euclid_loop_nonneg_or_nan v1 v2 sum r :
  nonneg_or_nan sum -> euclid_loop v1 v2 sum = Val r -> nonneg_or_nan r.
Proof.
  revert v2 sum; induction v1 as [|a v1 IH]; intros v2 sum Hs; cbn [euclid_loop].
  - by intros <-%Val_inj.
  - destruct v2 as [|b v2]; [done|]. apply IH. apply fadd_nonneg_or_nan; [done|apply fsquare_nonneg_or_nan].
Qed.
Lemma euclid_loop_nonneg v1 v2 sum r :
  nonneg sum -> vfinite v1 -> vfinite v2 -> euclid_loop v1 v2 sum = Val r -> nonneg r.
Proof.
  revert v2 sum; induction v1 as [|a v1 IH]; intros v2 sum Hs H1 H2; cbn [euclid_loop].
  - by intros <-%Val_inj.
  - destruct v2 as [|b v2]; [done|]. inversion_clear H1. inversion_clear H2.
    apply IH; try done. apply fadd_nonneg; [done|]. by apply fsquare_nonneg, fsub_num.
Qed.
Lemma fsqrt32_nan : fsqrt32 S754_nan = S754_nan. Proof. done. Qed.

Lemma euclidean_nonneg v1 v2 r : euclidean v1 v2 = Val r -> nonneg_or_nan r.
Proof.
  unfold euclidean. destruct (euclid_loop v1 v2 fzero) as [s| |] eqn:E; cbn [mbind out_bind]; try done.
  intros <-%Val_inj. apply euclid_loop_nonneg_or_nan in E; [|by right].
  destruct E as [->|E]; [by left|right]. by apply fsqrt32_nonneg.
Qed.
Lemma euclidean_finite v1 v2 r :
  vfinite v1 -> vfinite v2 -> euclidean v1 v2 = Val r -> nonneg r.
Proof.
  intros H1 H2. unfold euclidean.
  destruct (euclid_loop v1 v2 fzero) as [s| |] eqn:E; cbn [mbind out_bind]; try done.
  intros <-%Val_inj. apply fsqrt32_nonneg. by eapply euclid_loop_nonneg in E.
Qed.
Lemma euclid_loop_self v sum : vfinite v -> sum = fzero -> euclid_loop v v sum = Val fzero.
Proof.
  intros Hv. revert sum. induction Hv as [|a v Ha Hv IH]; intros sum ->; cbn [euclid_loop]; [done|].
  apply IH. by rewrite fsub_self.
Qed.
Lemma euclidean_self v : vfinite v -> euclidean v v = Val fzero.
Proof. intros. unfold euclidean. by rewrite euclid_loop_self. Qed.

Lemma euclidean_total v1 v2 :
  (length v1 <= length v2 -> exists r, euclidean v1 v2 = Val r) /\
  (length v2 < length v1 -> euclidean v1 v2 = Pan PIndex).
Proof.
  unfold euclidean. split; intros H.
  - apply (euclid_loop_len v1 v2 fzero) in H as [r ->]. by eexists.
  - by rewrite euclid_loop_pan.
Qed.

(** ** Dot product *)
(** The specification: products summed from left to right, from 0. *)
Fixpoint dot_spec (v1 v2 : fvec) (sum : fl) : fl :=
  match v1, v2 with
  | a :: v1', b :: v2' => dot_spec v1' v2' (fadd sum (fmul (f32_val a) (f32_val b)))
  | _, _ => sum
  end.

Lemma dot_spec_sym v1 v2 sum : dot_spec v1 v2 sum = dot_spec v2 v1 sum.
Proof.
  revert v2 sum; induction v1 as [|a v1 IH]; intros [|b v2] sum; cbn [dot_spec]; try done.
  rewrite IH. by rewrite fmul_comm.
Qed.

Lemma dot_stmt_at (v1 v2 : fvec) i a b s :
  v1 !! i = Some a -> v2 !! i = Some b ->
  dot_stmt v1 v2 i s = Val (fadd s (fmul (f32_val a) (f32_val b))).
Proof. intros E1 E2. unfold dot_stmt, vidx. by rewrite E1, E2. Qed.

Lemma dot_loop_step (v1 v2 : fvec) i s :
  i < length v1 -> length v1 = length v2 ->
  exists a b, drop i v1 = a :: drop (S i) v1 /\ drop i v2 = b :: drop (S i) v2 /\
    dot_stmt v1 v2 i s = Val (fadd s (fmul (f32_val a) (f32_val b))).
Proof.
  intros Hi Hl.
  destruct (lookup_lt_is_Some_2 v1 i) as [a Ha]; [lia|].
  destruct (lookup_lt_is_Some_2 v2 i) as [b Hb]; [lia|].
  exists a, b. split; [by apply drop_S|]. split; [by apply drop_S|]. by apply dot_stmt_at.
Qed.

Lemma dot_loop_spec fuel k (v1 v2 : fvec) i s :
  length v1 = length v2 -> length v1 = i + 8 * k -> k < fuel ->
  dot_loop fuel v1 v2 i s = Val (dot_spec (drop i v1) (drop i v2) s).
Proof.
  revert k i s. induction fuel as [|fuel IH]; intros k i s Hl Hk Hf; [lia|]. cbn [dot_loop].
  destruct (decide (i < length v1)) as [Hi|Hi].
  - destruct k as [|k]; [lia|].
    destruct (dot_loop_step v1 v2 i s) as (a0 & b0 & Ea0 & Eb0 & ->); [lia|done|].
    cbn [mbind out_bind]. rewrite Ea0, Eb0. cbn [dot_spec]. set (s0 := fadd s _). clearbody s0.
    replace (S i) with (i + 1) by lia.
    destruct (dot_loop_step v1 v2 (i + 1) s0) as (a1 & b1 & Ea1 & Eb1 & ->); [lia|done|].
    cbn [mbind out_bind]. rewrite Ea1, Eb1. cbn [dot_spec]. set (s1 := fadd s0 _). clearbody s1.
    replace (S (i + 1)) with (i + 2) by lia.
    destruct (dot_loop_step v1 v2 (i + 2) s1) as (a2 & b2 & Ea2 & Eb2 & ->); [lia|done|].
    cbn [mbind out_bind]. rewrite Ea2, Eb2. cbn [dot_spec]. set (s2 := fadd s1 _). clearbody s2.
    replace (S (i + 2)) with (i + 3) by lia.
    destruct (dot_loop_step v1 v2 (i + 3) s2) as (a3 & b3 & Ea3 & Eb3 & ->); [lia|done|].
    cbn [mbind out_bind]. rewrite Ea3, Eb3. cbn [dot_spec]. set (s3 := fadd s2 _). clearbody s3.
    replace (S (i + 3)) with (i + 4) by lia.
    destruct (dot_loop_step v1 v2 (i + 4) s3) as (a4 & b4 & Ea4 & Eb4 & ->); [lia|done|].
    cbn [mbind out_bind]. rewrite Ea4, Eb4. cbn [dot_spec]. set (s4 := fadd s3 _). clearbody s4.
    replace (S (i + 4)) with (i + 5) by lia.
    destruct (dot_loop_step v1 v2 (i + 5) s4) as (a5 & b5 & Ea5 & Eb5 & ->); [lia|done|].
    cbn [mbind out_bind]. rewrite Ea5, Eb5. cbn [dot_spec]. set (s5 := fadd s4 _). clearbody s5.
    replace (S (i + 5)) with (i + 6) by lia.
    destruct (dot_loop_step v1 v2 (i + 6) s5) as (a6 & b6 & Ea6 & Eb6 & ->); [lia|done|].
    cbn [mbind out_bind]. rewrite Ea6, Eb6. cbn [dot_spec]. set (s6 := fadd s5 _). clearbody s6.
    replace (S (i + 6)) with (i + 7) by lia.
    destruct (dot_loop_step v1 v2 (i + 7) s6) as (a7 & b7 & Ea7 & Eb7 & ->); [lia|done|].
    cbn [mbind out_bind]. rewrite Ea7, Eb7. cbn [dot_spec]. set (s7 := fadd s6 _). clearbody s7.
    replace (S (i + 7)) with (i + 8) by lia.
    apply (IH k); [done|lia|lia].
  - rewrite !drop_ge by lia. done.
Qed.

Lemma dot_mult8 (v1 v2 : fvec) :
  length v1 = length v2 -> length v1 mod 8 = 0 -> dot v1 v2 = Val (dot_spec v1 v2 fzero).
Proof.
  intros Hl Hm. unfold dot. apply (dot_loop_spec _ (length v1 / 8)); [done| |].
  - rewrite (Nat.div_mod (length v1) 8) at 1 by lia. lia.
  - pose proof (Nat.div_le_upper_bound (length v1) 8 (length v1)). lia.
Qed.

Lemma dot_stmt_pan (v1 v2 : fvec) i s : length v1 <= i -> dot_stmt v1 v2 i s = Pan PIndex.
Proof. intros H. assert (vidx v1 i = Pan PIndex) as E; [|unfold dot_stmt; by rewrite E].
  unfold vidx. assert (v1 !! i = None) as -> by (by apply lookup_ge_None_2). done. Qed.
Lemma dot_stmt_cases (v1 v2 : fvec) i s :
  length v1 = length v2 -> (exists s', dot_stmt v1 v2 i s = Val s') \/ dot_stmt v1 v2 i s = Pan PIndex.
Proof.
  intros Hl. destruct (decide (i < length v1)).
  - destruct (dot_loop_step v1 v2 i s) as (a & b & _ & _ & ->); [done..|]. left. by eexists.
  - right. apply dot_stmt_pan. lia.
Qed.

(** Any other dimension panics. *)
Lemma dot_loop_pan fuel (v1 v2 : fvec) i s :
  length v1 = length v2 -> i <= length v1 -> (length v1 - i) mod 8 <> 0 -> length v1 - i < 8 * fuel ->
  dot_loop fuel v1 v2 i s = Pan PIndex.
Proof.
  revert i s. induction fuel as [|fuel IH]; intros i s Hl Hi Hm Hf; [lia|]. cbn [dot_loop].
  destruct (decide (i < length v1)) as [Hi'|Hi'].
  2:{ replace (length v1 - i) with 0 in Hm by lia. done. }
  destruct (decide (i + 8 <= length v1)) as [H8|H8].
  - destruct (dot_loop_step v1 v2 i s) as (? & ? & _ & _ & ->); [lia|done|]. cbn [mbind out_bind].
    do 7 (match goal with
    | |- context [dot_stmt v1 v2 (i + ?k) ?s'] =>
        destruct (dot_loop_step v1 v2 (i + k) s') as (? & ? & _ & _ & ->); [lia|done|]; cbn [mbind out_bind]
    end).
    apply IH; [done|lia| |lia]. intros E. apply Hm.
    replace (length v1 - i) with ((length v1 - (i + 8)) + 1 * 8) by lia.
    rewrite Nat.mod_add by lia. done.
  - destruct (dot_stmt_cases v1 v2 i s Hl) as [[? ->]| ->]; cbn [mbind out_bind]; [|done].
    do 6 (match goal with
    | |- context [dot_stmt v1 v2 (i + ?k) ?s'] =>
        destruct (dot_stmt_cases v1 v2 (i + k) s' Hl) as [[? ->]| ->]; cbn [mbind out_bind]; [|done]
    end).
    rewrite dot_stmt_pan by lia. done.
Qed.

Lemma dot_not8 (v1 v2 : fvec) :
  length v1 = length v2 -> length v1 mod 8 <> 0 -> dot v1 v2 = Pan PIndex.
Proof. intros Hl Hm. unfold dot. apply dot_loop_pan; rewrite ?Nat.sub_0_r; lia. Qed.
