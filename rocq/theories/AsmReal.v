(** How far the assembly dot product is from the exact one. *)
From Verif Require Import GoBase FloatModel AsmModel CodecSpec FloatProofs FloatReal DistReal AsmProofs.
From Coq Require Import SpecFloat Reals Psatz.
From Flocq Require Import Core BinarySingleNaN.
Local Open Scope R_scope.

(** The fused operation rounds the exact value once. *)
Lemma F2R_shift m e e0 : (e0 <= e)%Z -> F2R (Float radix2 (m * 2 ^ (e - e0)) e0) = F2R (Float radix2 m e).
Proof.
  intros H. unfold F2R. cbn [Fnum Fexp]. rewrite mult_IZR, (IZR_Zpower radix2) by lia.
  rewrite Rmult_assoc, <- bpow_plus. do 2 f_equal. lia.
Qed.
Lemma prod_exact sx mx ex sy my ey : fval (S754_finite sx mx ex) * fval (S754_finite sy my ey) =
  F2R (Float radix2 (cond_Zopp (xorb sx sy) (Zpos (mx * my))) (ex + ey)).
Proof.
  unfold fval, F2R. cbn [SF2R]. unfold F2R. cbn [Fnum Fexp]. rewrite bpow_plus.
  replace (cond_Zopp (xorb sx sy) (Z.pos (mx * my))) with (cond_Zopp sx (Zpos mx) * cond_Zopp sy (Zpos my))%Z by (by destruct sx, sy).
  rewrite mult_IZR. ring.
Qed.
Lemma fma_exact sx mx ex sy my ey sz mz ez :
  fval (S754_finite sx mx ex) * fval (S754_finite sy my ey) + fval (S754_finite sz mz ez) =
  F2R (Float radix2 (cond_Zopp (xorb sx sy) (Zpos (mx * my)) * 2 ^ (ex + ey - Z.min (ex + ey) ez) +
    cond_Zopp sz (Zpos mz) * 2 ^ (ez - Z.min (ex + ey) ez)) (Z.min (ex + ey) ez)).
Proof.
  rewrite prod_exact. unfold fval. cbn [SF2R]. set (e0 := Z.min (ex + ey) ez).
  rewrite <- (F2R_shift _ (ex + ey) e0) by lia. rewrite <- (F2R_shift (cond_Zopp sz (Zpos mz)) ez e0) by lia.
  unfold F2R. cbn [Fnum Fexp]. rewrite plus_IZR. ring.
Qed.
Lemma ffma_real x y z : fin32 x -> fin32 y -> fin32 z ->
  Rabs (rnd32 (fval x * fval y + fval z)) < bpow radix2 128 ->
  fin32 (ffma x y z) /\ fval (ffma x y z) = rnd32 (fval x * fval y + fval z).
Proof.
  intros Hx Hy Hz Hb.
  assert (Hexact : forall w, fin32 w -> fval w = fval x * fval y + fval z -> fin32 w /\ fval w = rnd32 (fval x * fval y + fval z)).
  { intros w Hw E. split; [done|]. rewrite <- E. symmetry. unfold frnd. apply round_generic; [apply _|]. by apply ffin_format. }
  assert (Z0 : forall s, fval (S754_zero s) = 0) by done.
  destruct Hx as [Vx Fx], Hy as [Vy Fy].
  destruct x as [sx|sx| |sx mx ex], y as [sy|sy| |sy my ey]; try done; cbn [ffma].
  1,2,3: destruct z as [sz|sz| |sz mz ez]; try (destruct Hz; done); try (apply Hexact; [done|rewrite ?Z0; ring]);
         destruct (Bool.eqb _ _); (apply Hexact; [done|rewrite ?Z0; ring]).
  - destruct z as [sz|sz| |sz mz ez]; try (destruct Hz; done).
    + rewrite Z0, Rplus_0_r, prod_exact in *. by apply normalize_real.
    + rewrite fma_exact in *. by apply normalize_real.
Qed.

(** [v] stands for [S], with [k] roundings on the way of a sum of absolute
    values [A] and [m] possible underflows. *)
Definition near (k m : nat) (S A : R) (v : fl) : Prop :=
  fin32 v /\ Rabs S <= A /\ Rabs (fval v - S) <= ((1 + u32) ^ k - 1) * A + INR m * (1 + u32) ^ k * eta32.
(** Far from overflow. *)
Definition room (k m : nat) (A : R) : Prop :=
  INR k <= bpow radix2 23 /\ INR m <= bpow radix2 60 /\ A <= bpow radix2 124.

Lemma near_abs k m S A v : near k m S A v -> Rabs (fval v) <= (1 + u32) ^ k * A + INR m * (1 + u32) ^ k * eta32.
Proof.
  intros (_ & HS & Hd). replace (fval v) with ((fval v - S) + S) by ring. eapply Rle_trans; [apply Rabs_triang|]. lra.
Qed.
Lemma room_bound k m A : 0 <= A -> room k m A -> (1 + u32) ^ k * A + INR m * (1 + u32) ^ k * eta32 <= bpow radix2 126.
Proof.
  intros HA (Hk & Hm & HB). pose proof (pow_up_le2 k Hk) as H2. pose proof (pow_up_pos k). pose proof eta32_pos.
  assert (Hme : INR m * eta32 <= bpow radix2 124).
  { apply Rle_trans with (bpow radix2 60 * bpow radix2 (-149)).
    - apply Rmult_le_compat; [apply pos_INR|lra|done|]. unfold eta32. pose proof (bpow_ge_0 radix2 (-149)). lra.
    - rewrite <- bpow_plus. by apply bpow_le. }
  assert (0 <= INR m * eta32) by (apply Rmult_le_pos; [apply pos_INR|lra]).
  replace ((1 + u32) ^ k * A + INR m * (1 + u32) ^ k * eta32) with ((1 + u32) ^ k * (A + INR m * eta32)) by ring.
  change 126%Z with (124 + 2)%Z. rewrite bpow_plus. change (bpow radix2 2) with 4.
  apply Rle_trans with (2 * (bpow radix2 124 + bpow radix2 124)); [|lra]. apply Rmult_le_compat; lra.
Qed.
Lemma near_mono k k' m m' S A v : (k <= k')%nat -> (m <= m')%nat -> near k m S A v -> near k' m' S A v.
Proof.
  intros Hk Hm (Hf & HS & Hd). split; [done|]. split; [done|]. eapply Rle_trans; [exact Hd|].
  pose proof u32_pos. pose proof eta32_pos. pose proof (pow_up_pos k).
  assert (HA : 0 <= A) by (eapply Rle_trans; [apply Rabs_pos|exact HS]).
  assert (Hp : (1 + u32) ^ k <= (1 + u32) ^ k') by (apply Rle_pow; [lra|done]).
  assert (Hi : INR m <= INR m') by (by apply le_INR).
  pose proof (pos_INR m). apply Rplus_le_compat.
  - apply Rmult_le_compat_r; [done|lra].
  - apply Rmult_le_compat_r; [lra|]. apply Rmult_le_compat; lra.
Qed.
Lemma near_zero : near 0 0 0 0 fzero.
Proof. split; [done|]. change (fval fzero) with 0. rewrite Rabs_R0, Rminus_0_r, Rabs_R0. simpl. lra. Qed.
Lemma near_add k m1 m2 S1 S2 A1 A2 v1 v2 : near k m1 S1 A1 v1 -> near k m2 S2 A2 v2 -> room k (m1 + m2) (A1 + A2) ->
  near (S k) (m1 + m2) (S1 + S2) (A1 + A2) (fadd v1 v2).
Proof.
  intros N1 N2 HR. pose proof (near_abs _ _ _ _ _ N1) as B1. pose proof (near_abs _ _ _ _ _ N2) as B2.
  destruct N1 as (F1 & HS1 & D1), N2 as (F2 & HS2 & D2). pose proof u32_pos as Hu. pose proof eta32_pos as He.
  pose proof (Rabs_pos S1). pose proof (Rabs_pos S2).
  pose proof (room_bound k (m1 + m2) (A1 + A2) ltac:(lra) HR) as Hroom.
  unfold near. rewrite plus_INR in *. pose proof (pow_up_ge1 k) as Hp. set (p := (1 + u32) ^ k) in *.
  replace ((1 + u32) ^ S k) with ((1 + u32) * p) by done.
  set (A := A1 + A2) in *. set (M := INR m1 + INR m2) in *.
  assert (Hw : Rabs (fval v1 + fval v2) <= p * A + M * p * eta32).
  { eapply Rle_trans; [apply Rabs_triang|]. unfold A, M. lra. }
  destruct (fadd_step v1 v2 F1 F2) as (Ff & c & Hc & Hv).
  { eapply Rle_trans; [exact Hw|]. eapply Rle_trans; [exact Hroom|]. by apply bpow_le. }
  split; [exact Ff|]. split. { eapply Rle_trans; [apply Rabs_triang|]. unfold A. lra. }
  rewrite Hv. replace ((fval v1 + fval v2) * c - (S1 + S2)) with ((fval v1 + fval v2) * (c - 1) + ((fval v1 - S1) + (fval v2 - S2))) by ring.
  eapply Rle_trans; [apply Rabs_triang|]. rewrite Rabs_mult.
  assert (Rabs (fval v1 + fval v2) * Rabs (c - 1) <= (p * A + M * p * eta32) * u32).
  { apply Rmult_le_compat; [apply Rabs_pos..|done|]. apply Rabs_le. lra. }
  assert (Rabs (fval v1 - S1 + (fval v2 - S2)) <= (p - 1) * A + M * p * eta32).
  { eapply Rle_trans; [apply Rabs_triang|]. unfold A, M. lra. }
  lra.
Qed.
Lemma near_fma k m S0 A v a b : f32_finite a -> f32_finite b -> near k m S0 A v ->
  room k m A -> Rabs (f32_real a * f32_real b) <= bpow radix2 124 ->
  near (S k) (S m) (S0 + f32_real a * f32_real b) (A + Rabs (f32_real a * f32_real b)) (ffma (f32_val a) (f32_val b) v).
Proof.
  intros Ha Hb N HR Hab. pose proof (near_abs _ _ _ _ _ N) as B. destruct N as (F & HS & D). pose proof u32_pos as Hu. pose proof eta32_pos as He.
  pose proof (Rabs_pos S0). pose proof (room_bound k m A ltac:(lra) HR) as Hroom.
  destruct (f32_val_real a Ha) as [Fa Va], (f32_val_real b Hb) as [Fb Vb].
  unfold near. rewrite S_INR. pose proof (pow_up_ge1 k) as Hp. set (p := (1 + u32) ^ k) in *.
  replace ((1 + u32) ^ S k) with ((1 + u32) * p) by done.
  set (x := f32_real a * f32_real b) in *. pose proof (Rabs_pos x) as Hx0. pose proof (pos_INR m) as Hm0. set (M := INR m) in *.
  assert (Hz : Rabs (x + fval v) <= Rabs x + (p * A + M * p * eta32)) by (eapply Rle_trans; [apply Rabs_triang|]; lra).
  destruct (ffma_real (f32_val a) (f32_val b) v Fa Fb F) as [Ff Hv].
  { rewrite Va, Vb. fold x. apply rnd32_ok. eapply Rle_trans; [exact Hz|].
    assert (bpow radix2 124 <= bpow radix2 126) by (by apply bpow_le).
    change 127%Z with (126 + 1)%Z. rewrite bpow_plus. change (bpow radix2 1) with 2. lra. }
  split; [exact Ff|]. split. { eapply Rle_trans; [apply Rabs_triang|]. lra. }
  rewrite Hv, Va, Vb. fold x. destruct (rnd32_mul_err (x + fval v)) as (eps & h & He1 & He2 & ->).
  replace ((x + fval v) * (1 + eps) + h - (S0 + x)) with ((x + fval v) * eps + h + (fval v - S0)) by ring.
  eapply Rle_trans; [apply Rabs_triang|]. eapply Rle_trans; [apply Rplus_le_compat_r, Rabs_triang|]. rewrite Rabs_mult.
  assert (Rabs (x + fval v) * Rabs eps <= (Rabs x + (p * A + M * p * eta32)) * u32) by (apply Rmult_le_compat; [apply Rabs_pos..|done|done]).
  assert (0 <= (p - 1) * Rabs x) by (apply Rmult_le_pos; lra).
  assert (0 <= u32 * ((p - 1) * Rabs x)) by (apply Rmult_le_pos; lra).
  assert (0 <= (p - 1) * eta32) by (apply Rmult_le_pos; lra).
  assert (0 <= u32 * ((p - 1) * eta32)) by (apply Rmult_le_pos; lra).
  assert (0 <= u32 * eta32) by (apply Rmult_le_pos; lra).
  lra.
Qed.

Lemma room_mono k k' m m' A A' : (k' <= k)%nat -> (m' <= m)%nat -> A' <= A -> room k m A -> room k' m' A'.
Proof.
  intros Hk Hm HA (R1 & R2 & R3). split_and!.
  - eapply Rle_trans; [|exact R1]. by apply le_INR.
  - eapply Rle_trans; [|exact R2]. by apply le_INR.
  - lra.
Qed.

(** ** Values collected by the program, for any notion of how a value stands for
    a sum that the two operations of the program keep. *)
Section fold.
  Context (P : f32 -> Prop) (N : nat -> nat -> R -> R -> fl -> Prop) (Rm : nat -> nat -> R -> Prop).
  Context (N_abs : forall k m s A v, N k m s A v -> Rabs s <= A).
  Context (N_mono : forall k k' m m' s A v, (k <= k')%nat -> (m <= m')%nat -> N k m s A v -> N k' m' s A v).
  Context (N_zero : N 0 0 0 0 fzero).
  Context (N_add : forall k m1 m2 s1 s2 A1 A2 v1 v2, N k m1 s1 A1 v1 -> N k m2 s2 A2 v2 -> Rm k (m1 + m2) (A1 + A2) ->
    N (S k) (m1 + m2) (s1 + s2) (A1 + A2) (fadd v1 v2)).
  Context (N_fma : forall k m s A v a b, P a -> P b -> N k m s A v -> Rm k m (A + Rabs (f32_real a * f32_real b)) ->
    N (S k) (S m) (s + f32_real a * f32_real b) (A + Rabs (f32_real a * f32_real b)) (ffma (f32_val a) (f32_val b) v)).
  Context (Rm_mono : forall k k' m m' A A', (k' <= k)%nat -> (m' <= m)%nat -> A' <= A -> Rm k m A -> Rm k' m' A').

(** Sums of lists of pairs (exact value, absolute value). *)
Fixpoint sumS (l : list (R * R)) : R := match l with [] => 0 | (s, _) :: l' => s + sumS l' end.
Fixpoint sumA (l : list (R * R)) : R := match l with [] => 0 | (_, a) :: l' => a + sumA l' end.
Definition nears (k m : nat) : list (R * R) -> list fl -> Prop := Forall2 (fun x v => N k m x.1 x.2 v).
Lemma nears_pos k m l vs : nears k m l vs -> 0 <= sumA l.
Proof.
  induction 1 as [|[s a] v l vs H%N_abs _ IH]; simpl; [lra|]. pose proof (Rabs_pos s). cbn in H. lra.
Qed.
  Lemma Rm_le k m A A' : A' <= A -> Rm k m A -> Rm k m A'.
  Proof. intros H HR. eapply Rm_mono; [| | |exact HR]; [lia|lia|lra]. Qed.
Lemma fma_near k m l d : nears k m l d -> forall x y, Forall P x -> Forall P y -> (length d <= length x)%nat -> (length d <= length y)%nat ->
  Rm k m (sumA l + real_absdot (take (length d) x) (take (length d) y)) ->
  exists l', nears (S k) (S m) l' (fma_lanes (vals (length d) x) (vals (length d) y) d) /\
    sumS l' = sumS l + real_dot (take (length d) x) (take (length d) y) /\
    sumA l' = sumA l + real_absdot (take (length d) x) (take (length d) y).
Proof.
  induction 1 as [|[s a] v l vs Hn Hl IH]; intros x y Fx Fy Lx Ly HR.
  { exists []. split; [constructor|]. simpl. lra. }
  destruct x as [|b x]; [cbn in Lx; lia|]. destruct y as [|c y]; [cbn in Ly; lia|].
  apply Forall_cons in Fx as [Fb Fx]. apply Forall_cons in Fy as [Fc Fy].
  cbn [length take real_dot real_absdot sumA] in *.
  pose proof (nears_pos _ _ _ _ Hl) as Hp. pose proof (real_absdot_nonneg (take (length vs) x) (take (length vs) y)) as Hq.
  pose proof (Rabs_pos (f32_real b * f32_real c)) as Hr.
  assert (Ha : 0 <= a). { pose proof (N_abs _ _ _ _ _ Hn) as H. cbn in H. pose proof (Rabs_pos s). lra. }
  destruct (IH x y Fx Fy) as (l' & H1 & H2 & H3); [lia|lia|eapply Rm_le; [|exact HR]; lra|].
  exists ((s + f32_real b * f32_real c, a + Rabs (f32_real b * f32_real c)) :: l'). split_and!.
  - unfold vals. cbn [take fmap list_fmap fma_lanes]. constructor; [|exact H1]. cbn [fst snd] in *. apply N_fma; try done. eapply Rm_le; [|exact HR]. lra.
  - cbn [sumS]. rewrite H2. lra.
  - cbn [sumA]. rewrite H3. lra.
Qed.
Lemma real_dot_split n : forall x y, real_dot (take n x) (take n y) + real_dot (drop n x) (drop n y) = real_dot x y.
Proof.
  induction n as [|n IH]; intros x y; [simpl; rewrite !drop_0; lra|]. destruct x as [|a x], y as [|b y]; simpl; try lra.
  - destruct (drop n x); simpl; lra.
  - rewrite <- (IH x y). lra.
Qed.
Lemma real_absdot_split n : forall x y, real_absdot (take n x) (take n y) + real_absdot (drop n x) (drop n y) = real_absdot x y.
Proof.
  induction n as [|n IH]; intros x y; [simpl; rewrite !drop_0; lra|]. destruct x as [|a x], y as [|b y]; simpl; try lra.
  - destruct (drop n x); simpl; lra.
  - rewrite <- (IH x y). lra.
Qed.

Lemma fma_len (d : list fl) : forall x y : list fl, length x = length d -> length y = length d -> length (fma_lanes x y d) = length d.
Proof. induction d as [|a d IH]; intros [|b x] [|c y] Hx Hy; try done. cbn. f_equal. apply IH; [by injection Hx|by injection Hy]. Qed.
Lemma vals_len n (x : fvec) : (n <= length x)%nat -> length (vals n x) = n.
Proof. intros H. unfold vals. rewrite fmap_length, take_length. apply Nat.min_l. exact H. Qed.

(** The accumulators, one list of pairs for each. *)
Definition accs (k m : nat) (L : list (list (R * R))) (acc : list (list fl)) : Prop :=
  Forall2 (fun l v => length v = 8%nat /\ nears k m l v) L acc.
Fixpoint totS (L : list (list (R * R))) : R := match L with [] => 0 | l :: L' => sumS l + totS L' end.
Fixpoint totA (L : list (list (R * R))) : R := match L with [] => 0 | l :: L' => sumA l + totA L' end.
Lemma accs_pos k m L acc : accs k m L acc -> 0 <= totA L.
Proof. induction 1 as [|l v L acc [_ H] _ IH]; simpl; [lra|]. pose proof (nears_pos _ _ _ _ H). lra. Qed.
Lemma imap_near k m L acc : accs k m L acc -> forall x y, Forall P x -> Forall P y ->
  (8 * length acc <= length x)%nat -> (8 * length acc <= length y)%nat ->
  Rm k m (totA L + real_absdot (take (8 * length acc) x) (take (8 * length acc) y)) ->
  exists L', accs (S k) (S m) L' (imap (acc_step x y) acc) /\
    totS L' = totS L + real_dot (take (8 * length acc) x) (take (8 * length acc) y) /\
    totA L' = totA L + real_absdot (take (8 * length acc) x) (take (8 * length acc) y).
Proof.
  induction 1 as [|l v L acc [Hv Hn] HL IH]; intros x y Fx Fy Lx Ly HR.
  { exists []. split; [constructor|]. simpl. lra. }
  cbn [length] in *. set (n := (8 * length acc)%nat) in *. assert (En : (8 * S (length acc) = 8 + n)%nat) by lia. rewrite En in Lx, Ly, HR |- *.
  assert (Ed : real_dot (take (8 + n) x) (take (8 + n) y) = real_dot (take 8 x) (take 8 y) + real_dot (take n (drop 8 x)) (take n (drop 8 y))).
  { rewrite <- (real_dot_split 8 (take (8 + n) x)). rewrite !take_take, !skipn_firstn_comm. replace (8 + n - 8)%nat with n by lia. by rewrite !Nat.min_l by lia. }
  assert (Ea : real_absdot (take (8 + n) x) (take (8 + n) y) = real_absdot (take 8 x) (take 8 y) + real_absdot (take n (drop 8 x)) (take n (drop 8 y))).
  { rewrite <- (real_absdot_split 8 (take (8 + n) x)). rewrite !take_take, !skipn_firstn_comm. replace (8 + n - 8)%nat with n by lia. by rewrite !Nat.min_l by lia. }
  rewrite Ea in HR. rewrite Ed, Ea. cbn [totA totS] in *.
  pose proof (nears_pos _ _ _ _ Hn) as P1. pose proof (accs_pos _ _ _ _ HL) as P2.
  pose proof (real_absdot_nonneg (take 8 x) (take 8 y)) as P3. pose proof (real_absdot_nonneg (take n (drop 8 x)) (take n (drop 8 y))) as P4.
  destruct (fma_near k m l v Hn x y Fx Fy) as (l' & A1 & A2 & A3); [lia|lia|rewrite Hv; eapply Rm_le; [|exact HR]; lra|]. rewrite Hv in A1, A2, A3.
  destruct (IH (drop 8 x) (drop 8 y)) as (L' & B1 & B2 & B3); [by apply Forall_drop|by apply Forall_drop|rewrite drop_length; lia|rewrite drop_length; lia|
    eapply Rm_le; [|exact HR]; lra|].
  exists (l' :: L'). split_and!.
  - rewrite imap_cons. constructor.
    + unfold acc_step. rewrite Nat.mul_0_r, !drop_0. split; [|exact A1]. rewrite <- Hv. apply fma_len; rewrite Hv; apply vals_len; lia.
    + erewrite imap_ext; [exact B1|]. intros i a _. unfold compose, acc_step. rewrite !drop_drop. by replace (8 + 8 * i)%nat with (8 * S i)%nat by lia.
  - cbn [totS]. rewrite A2, B2. lra.
  - cbn [totA]. rewrite A3, B3. lra.
Qed.
Lemma blocks_near nb : forall k m L acc x y, accs k m L acc -> length acc = 6%nat -> Forall P x -> Forall P y ->
  (48 * nb <= length x)%nat -> (48 * nb <= length y)%nat -> Rm (nb + k) (nb + m) (totA L + real_absdot (take (48 * nb) x) (take (48 * nb) y)) ->
  exists L', accs (nb + k) (nb + m) L' (blocks nb x y acc) /\
    totS L' = totS L + real_dot (take (48 * nb) x) (take (48 * nb) y) /\
    totA L' = totA L + real_absdot (take (48 * nb) x) (take (48 * nb) y).
Proof.
  induction nb as [|nb IH]; intros k m L acc x y HL H6 Fx Fy Lx Ly HR.
  { exists L. split; [exact HL|]. simpl. lra. }
  set (n := (48 * nb)%nat) in *. assert (En : (48 * S nb = 48 + n)%nat) by lia. rewrite En in Lx, Ly, HR |- *.
  assert (Ed : real_dot (take (48 + n) x) (take (48 + n) y) = real_dot (take 48 x) (take 48 y) + real_dot (take n (drop 48 x)) (take n (drop 48 y))).
  { rewrite <- (real_dot_split 48 (take (48 + n) x)). rewrite !take_take, !skipn_firstn_comm. replace (48 + n - 48)%nat with n by lia. by rewrite !Nat.min_l by lia. }
  assert (Ea : real_absdot (take (48 + n) x) (take (48 + n) y) = real_absdot (take 48 x) (take 48 y) + real_absdot (take n (drop 48 x)) (take n (drop 48 y))).
  { rewrite <- (real_absdot_split 48 (take (48 + n) x)). rewrite !take_take, !skipn_firstn_comm. replace (48 + n - 48)%nat with n by lia. by rewrite !Nat.min_l by lia. }
  rewrite Ea in HR. rewrite Ed, Ea. pose proof (accs_pos _ _ _ _ HL) as P2.
  pose proof (real_absdot_nonneg (take 48 x) (take 48 y)) as P3. pose proof (real_absdot_nonneg (take n (drop 48 x)) (take n (drop 48 y))) as P4.
  destruct (imap_near k m L acc HL x y Fx Fy) as (L' & A1 & A2 & A3); [rewrite H6; lia|rewrite H6; lia| |].
  { rewrite H6. change (8 * 6)%nat with 48%nat. eapply Rm_mono; [| | |exact HR]; [lia|lia|lra]. }
  rewrite H6 in A2, A3. change (8 * 6)%nat with 48%nat in A2, A3.
  destruct (IH (S k) (S m) L' (imap (acc_step x y) acc) (drop 48 x) (drop 48 y)) as (L2 & B1 & B2 & B3); try done.
  - by rewrite imap_length.
  - by apply Forall_drop.
  - by apply Forall_drop.
  - rewrite drop_length. fold n. lia.
  - rewrite drop_length. fold n. lia.
  - fold n. rewrite A3. replace (nb + S k)%nat with (S nb + k)%nat by lia. replace (nb + S m)%nat with (S nb + m)%nat by lia.
    eapply Rm_le; [|exact HR]. lra.
  - fold n in B2, B3. exists L2. cbn [blocks]. replace (nb + S k)%nat with (S nb + k)%nat in B1 by lia. replace (nb + S m)%nat with (S nb + m)%nat in B1 by lia.
    split; [exact B1|]. rewrite B2, B3, A2, A3. lra.
Qed.
Lemma tail_near x : forall y k m S0 A t, N k m S0 A t -> Forall P x -> Forall P y -> (length x <= length y)%nat ->
  Rm (length x + k) (length x + m) (A + real_absdot x y) ->
  N (length x + k) (length x + m) (S0 + real_dot x y) (A + real_absdot x y) (tail_sum x y t).
Proof.
  induction x as [|a x IH]; intros y k m S0 A t Hn Fx Fy Hl HR.
  { simpl. by rewrite !Rplus_0_r. }
  destruct y as [|b y]; [cbn in Hl; lia|]. apply Forall_cons in Fx as [Fa Fx]. apply Forall_cons in Fy as [Fb Fy].
  cbn [length real_dot real_absdot tail_sum] in *. pose proof (real_absdot_nonneg x y) as Pq. pose proof (Rabs_pos (f32_real a * f32_real b)) as Hr.
  assert (Ha : 0 <= A). { pose proof (N_abs _ _ _ _ _ Hn) as H. pose proof (Rabs_pos S0). lra. }
  replace (S (length x) + k)%nat with (length x + S k)%nat in * by lia. replace (S (length x) + m)%nat with (length x + S m)%nat in * by lia.
  rewrite <- !Rplus_assoc in *. apply IH; try done; [|lia].
  apply N_fma; try done. eapply Rm_mono; [| | |exact HR]; [lia|lia|lra].
Qed.
Lemma lanes_near k m1 m2 l1 v1 : nears k m1 l1 v1 -> forall l2 v2, nears k m2 l2 v2 -> length v1 = length v2 -> Rm k (m1 + m2) (sumA l1 + sumA l2) ->
  exists l, nears (S k) (m1 + m2) l (lanes fadd v1 v2) /\ sumS l = sumS l1 + sumS l2 /\ sumA l = sumA l1 + sumA l2.
Proof.
  induction 1 as [|[s1 a1] x1 l1 v1 H1 Hl IH]; intros l2 v2 H2 Hlen HR.
  { destruct H2; [|done]. exists []. split; [constructor|]. simpl. lra. }
  destruct H2 as [|[s2 a2] x2 l2 v2 H2 Hl2]; [done|]. injection Hlen as Hlen. cbn [sumA] in HR.
  pose proof (nears_pos _ _ _ _ Hl) as P1. pose proof (nears_pos _ _ _ _ Hl2) as P2.
  assert (0 <= a1). { pose proof (N_abs _ _ _ _ _ H1) as H. cbn in H. pose proof (Rabs_pos s1). lra. }
  assert (0 <= a2). { pose proof (N_abs _ _ _ _ _ H2) as H2'. cbn in H2'. pose proof (Rabs_pos s2). lra. }
  destruct (IH l2 v2 Hl2 Hlen) as (l & B1 & B2 & B3); [eapply Rm_le; [|exact HR]; lra|].
  exists ((s1 + s2, a1 + a2) :: l). split_and!.
  - unfold lanes. cbn [zip_with]. constructor; [|exact B1]. cbn [fst snd]. apply N_add; [done..|]. eapply Rm_le; [|exact HR]. lra.
  - cbn [sumS]. lra.
  - cbn [sumA]. lra.
Qed.
Lemma lanes_len (a b : list fl) : length a = 8%nat -> length b = 8%nat -> length (lanes fadd a b) = 8%nat.
Proof. intros Ha Hb. unfold lanes. rewrite zip_with_length. lia. Qed.
Lemma reduce_near k m mt L acc St At t : accs k m L acc -> length acc = 6%nat -> N (k + 47) mt St At t ->
  Rm (k + 50) (48 * m + mt) (totA L + At) ->
  N (k + 50) (48 * m + mt) (totS L + St) (totA L + At) (reduce acc t).
Proof.
  intros HL H6 Ht HR.
  assert (HA : 0 <= At). { pose proof (N_abs _ _ _ _ _ Ht) as H. pose proof (Rabs_pos St). lra. }
  destruct HL as [|l0 a0 L ? [E0 N0] HL]; [done|]. destruct HL as [|l1 a1 L ? [E1 N1] HL]; [done|]. destruct HL as [|l2 a2 L ? [E2 N2] HL]; [done|].
  destruct HL as [|l3 a3 L ? [E3 N3] HL]; [done|]. destruct HL as [|l4 a4 L ? [E4 N4] HL]; [done|]. destruct HL as [|l5 a5 L ? [E5 N5] HL]; [done|].
  destruct HL; [|done]. cbn [totS totA] in *.
  pose proof (nears_pos _ _ _ _ N0). pose proof (nears_pos _ _ _ _ N1). pose proof (nears_pos _ _ _ _ N2).
  pose proof (nears_pos _ _ _ _ N3). pose proof (nears_pos _ _ _ _ N4). pose proof (nears_pos _ _ _ _ N5).
  assert (Hm : forall j l v, nears k m l v -> nears (j + k) m l v).
  { intros j l v Hn. eapply Forall2_impl; [exact Hn|]. intros x w Hw. eapply N_mono; [| |exact Hw]; lia. }
  pose proof (lanes_len a1 a0 E1 E0) as Q1. pose proof (lanes_len a2 _ E2 Q1) as Q2. pose proof (lanes_len a3 _ E3 Q2) as Q3.
  pose proof (lanes_len a4 _ E4 Q3) as Q4. pose proof (lanes_len a5 _ E5 Q4) as Q5.
  destruct (lanes_near k m m l1 a1 N1 l0 a0 N0) as (b1 & B1 & S1 & A1); [congruence|eapply Rm_mono; [| | |exact HR]; [lia|lia|lra]|].
  destruct (lanes_near (S k) m (m + m) l2 a2 (Hm 1%nat _ _ N2) b1 _ B1) as (b2 & B2 & S2 & A2); [exact (eq_trans E2 (eq_sym Q1))|eapply Rm_mono; [| | |exact HR]; [lia|lia|lra]|].
  destruct (lanes_near (S (S k)) m _ l3 a3 (Hm 2%nat _ _ N3) b2 _ B2) as (b3 & B3 & S3 & A3); [exact (eq_trans E3 (eq_sym Q2))|eapply Rm_mono; [| | |exact HR]; [lia|lia|lra]|].
  destruct (lanes_near (S (S (S k))) m _ l4 a4 (Hm 3%nat _ _ N4) b3 _ B3) as (b4 & B4 & S4 & A4); [exact (eq_trans E4 (eq_sym Q3))|eapply Rm_mono; [| | |exact HR]; [lia|lia|lra]|].
  destruct (lanes_near (S (S (S (S k)))) m _ l5 a5 (Hm 4%nat _ _ N5) b4 _ B4) as (b5 & B5 & S5 & A5); [exact (eq_trans E5 (eq_sym Q4))|eapply Rm_mono; [| | |exact HR]; [lia|lia|lra]|].
  unfold reduce. set (w := lanes fadd a5 _) in *.
  assert (Hw : length w = 8%nat) by exact Q5.
  assert (ES : sumS l0 + (sumS l1 + (sumS l2 + (sumS l3 + (sumS l4 + (sumS l5 + 0))))) = sumS b5) by lra.
  assert (EA : sumA l0 + (sumA l1 + (sumA l2 + (sumA l3 + (sumA l4 + (sumA l5 + 0))))) = sumA b5) by lra.
  rewrite ES, EA in *. clearbody w.
  set (m6 := (m + (m + (m + (m + (m + m)))))%nat) in *. assert (Em : (6 * m = m6)%nat) by lia. clearbody m6.
  clear - N_abs N_mono N_zero N_add Rm_mono B5 Hw HR Ht HA Em.
  destruct B5 as [|[s0 q0] w0 ? ? W0 B5]; [done|]. destruct B5 as [|[s1 q1] w1 ? ? W1 B5]; [done|]. destruct B5 as [|[s2 q2] w2 ? ? W2 B5]; [done|].
  destruct B5 as [|[s3 q3] w3 ? ? W3 B5]; [done|]. destruct B5 as [|[s4 q4] w4 ? ? W4 B5]; [done|]. destruct B5 as [|[s5 q5] w5 ? ? W5 B5]; [done|].
  destruct B5 as [|[s6 q6] w6 ? ? W6 B5]; [done|]. destruct B5 as [|[s7 q7] w7 ? ? W7 B5]; [done|]. destruct B5; [|done].
  cbn [sumS sumA fst snd] in *.
  assert (Pq : forall k m s q v, N k m s q v -> 0 <= q). { intros ? ? s q v H%N_abs. pose proof (Rabs_pos s). lra. }
  pose proof (Pq _ _ _ _ _ W0). pose proof (Pq _ _ _ _ _ W1). pose proof (Pq _ _ _ _ _ W2). pose proof (Pq _ _ _ _ _ W3).
  pose proof (Pq _ _ _ _ _ W4). pose proof (Pq _ _ _ _ _ W5). pose proof (Pq _ _ _ _ _ W6). pose proof (Pq _ _ _ _ _ W7).
  assert (HZ : N (k + 47) 0 0 0 fzero) by (eapply N_mono; [| |exact N_zero]; lia).
  assert (HU : forall m s q v, N (S (S (S (S (S (S k)))))) m s q v -> N (k + 47) m s q v).
  { intros ? ? ? ? Hn. eapply N_mono; [| |exact Hn]; lia. }
  pose proof (HU _ _ _ _ (N_add _ _ _ _ _ _ _ _ _ W4 W0 ltac:(eapply Rm_mono; [| | |exact HR]; [lia|lia|lra]))) as V0.
  pose proof (HU _ _ _ _ (N_add _ _ _ _ _ _ _ _ _ W5 W1 ltac:(eapply Rm_mono; [| | |exact HR]; [lia|lia|lra]))) as V1.
  pose proof (HU _ _ _ _ (N_add _ _ _ _ _ _ _ _ _ W6 W2 ltac:(eapply Rm_mono; [| | |exact HR]; [lia|lia|lra]))) as V2.
  pose proof (HU _ _ _ _ (N_add _ _ _ _ _ _ _ _ _ W7 W3 ltac:(eapply Rm_mono; [| | |exact HR]; [lia|lia|lra]))) as V3.
  pose proof (N_add _ _ _ _ _ _ _ _ _ Ht V0 ltac:(eapply Rm_mono; [| | |exact HR]; [lia|lia|lra])) as T0.
  pose proof (N_add _ _ _ _ _ _ _ _ _ HZ V1 ltac:(eapply Rm_mono; [| | |exact HR]; [lia|lia|lra])) as T1.
  pose proof (N_add _ _ _ _ _ _ _ _ _ HZ V2 ltac:(eapply Rm_mono; [| | |exact HR]; [lia|lia|lra])) as T2.
  pose proof (N_add _ _ _ _ _ _ _ _ _ HZ V3 ltac:(eapply Rm_mono; [| | |exact HR]; [lia|lia|lra])) as T3.
  pose proof (N_add _ _ _ _ _ _ _ _ _ T0 T1 ltac:(eapply Rm_mono; [| | |exact HR]; [lia|lia|lra])) as U0.
  pose proof (N_add _ _ _ _ _ _ _ _ _ T2 T3 ltac:(eapply Rm_mono; [| | |exact HR]; [lia|lia|lra])) as U1.
  pose proof (N_add _ _ _ _ _ _ _ _ _ U0 U1 ltac:(eapply Rm_mono; [| | |exact HR]; [lia|lia|lra])) as X.
  eapply N_mono with (k := S (S (S (k + 47)))) (m := (mt + (m6 + m6) + (0 + (m6 + m6)) + (0 + (m6 + m6) + (0 + (m6 + m6))))%nat); [lia|lia|].
  replace (s0 + _ + St) with (St + (s4 + s0) + (0 + (s5 + s1)) + (0 + (s6 + s2) + (0 + (s7 + s3)))) by ring.
  replace (q0 + _ + At) with (At + (q4 + q0) + (0 + (q5 + q1)) + (0 + (q6 + q2) + (0 + (q7 + q3)))) by ring.
  exact X.
Qed.

Lemma asm_dot_N x y : Forall P x -> Forall P y -> length x = length y ->
  Rm (length x / 48 + 50) (length x) (real_absdot x y) ->
  N (length x / 48 + 50) (length x) (real_dot x y) (real_absdot x y) (asm_dot x y).
Proof.
  intros Fx Fy Hl HRn. unfold asm_dot. set (n := length x) in *. set (nb := (n / 48)%nat).
  assert (Hnb : (48 * nb <= n)%nat) by (apply Nat.mul_div_le; lia).
  assert (Hr : (n - 48 * nb <= 47)%nat). { pose proof (Nat.div_mod n 48 ltac:(lia)) as D. fold nb in D. pose proof (Nat.mod_upper_bound n 48 ltac:(lia)). lia. }
  set (r := (n - 48 * nb)%nat) in *.
  pose proof (real_dot_split (48 * nb) x y) as Sd. pose proof (real_absdot_split (48 * nb) x y) as Sa.
  set (dx := drop (48 * nb) x) in *. set (dy := drop (48 * nb) y) in *.
  assert (Ldx : length dx = r) by (unfold dx; rewrite drop_length; unfold r, n; reflexivity).
  assert (Ldy : length dy = r) by (unfold dy; rewrite drop_length, <- Hl; reflexivity).
  pose proof (real_absdot_nonneg dx dy) as P1. pose proof (real_absdot_nonneg (take (48 * nb) x) (take (48 * nb) y)) as P2.
  assert (Z0 : accs 0 0 (replicate 6 (replicate 8 (0, 0))) (replicate 6 yzero)).
  { unfold accs. apply Forall2_replicate. split; [done|]. unfold nears. apply Forall2_replicate. exact N_zero. }
  assert (S0 : totS (replicate 6 (replicate 8 (0, 0))) = 0) by (simpl; lra).
  assert (A0 : totA (replicate 6 (replicate 8 (0, 0))) = 0) by (simpl; lra).
  destruct (blocks_near nb 0 0 _ _ x y Z0 eq_refl Fx Fy) as (L & B1 & B2 & B3).
  { exact Hnb. } { rewrite <- Hl. exact Hnb. }
  { rewrite A0, !Nat.add_0_r. eapply Rm_mono; [| | |exact HRn]; [lia|lia|lra]. }
  rewrite S0 in B2. rewrite A0 in B3. rewrite !Nat.add_0_r in B1.
  assert (T : N r r (real_dot dx dy) (real_absdot dx dy) (tail_sum dx dy fzero)).
  { pose proof (tail_near dx dy 0 0 0 0 fzero N_zero) as T. rewrite Ldx, !Nat.add_0_r, !Rplus_0_l in T. apply T.
    - by apply Forall_drop.
    - by apply Forall_drop.
    - by rewrite Ldy.
    - eapply Rm_mono; [| | |exact HRn]; [lia|lia|lra]. }
  replace (real_dot x y) with (totS L + real_dot dx dy) by lra.
  replace (real_absdot x y) with (totA L + real_absdot dx dy) by lra.
  replace n with (48 * nb + r)%nat by (unfold r; lia).
  apply reduce_near; [done| |eapply N_mono; [| |exact T]; lia|].
  - rewrite <- (Forall2_length _ _ _ B1). 
    assert (Hlen : forall nb x y acc, length (blocks nb x y acc) = length acc).
    { clear. induction nb as [|nb IH]; intros x y acc; [done|]. cbn [blocks]. rewrite IH. apply imap_length. }
    pose proof (Forall2_length _ _ _ B1) as E. rewrite E. apply Hlen.
  - eapply Rm_mono; [| | |exact HRn]; [lia|unfold r; lia|lra].
Qed.
End fold.

Theorem asm_dot_near x y : Forall f32_finite x -> Forall f32_finite y -> length x = length y ->
  (Z.of_nat (length x) <= 2 ^ 28)%Z -> real_absdot x y <= bpow radix2 124 ->
  near (length x / 48 + 50) (length x) (real_dot x y) (real_absdot x y) (asm_dot x y).
Proof.
  intros Fx Fy Hl Hn HA. apply (asm_dot_N f32_finite near room); try done.
  - by intros k m s A v (_ & H & _).
  - intros. by eapply near_mono.
  - exact near_zero.
  - intros. by apply near_add.
  - intros k m s A v a b Ha Hb Hv HR. pose proof (Rabs_pos (f32_real a * f32_real b)).
    assert (0 <= A). { destruct Hv as (_ & Hs & _). pose proof (Rabs_pos s). lra. }
    apply near_fma; try done; [|destruct HR as (_ & _ & HR); lra]. eapply room_mono; [| | |exact HR]; [lia|lia|lra].
  - intros. by eapply room_mono.
  - set (n := length x) in *. pose proof (Nat.mul_div_le n 48 ltac:(lia)) as Hd. split_and!; [| |done].
    + rewrite INR_IZR_INZ. change (bpow radix2 23) with (IZR (2 ^ 23)). apply IZR_le. lia.
    + rewrite INR_IZR_INZ. apply Rle_trans with (IZR (2 ^ 28)); [by apply IZR_le|]. change (IZR (2 ^ 28)) with (bpow radix2 28). by apply bpow_le.
Qed.
