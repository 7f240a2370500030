(** How accurate the computed distances are, and what that makes of the order
    in which search answers: C78, C79, C80, C81.  Real numbers are those of
    the standard library, so its axioms for them are listed under the theorems. *)
From stdpp Require Import sorting.
From Verif Require Import GoBase FloatModel HeapModel ProgModel StateModel HnswModel CollModel DBModel CodecSpec FloatProofs IndexHist
  FloatReal DistReal PropFloat PropIndex PropExact.
From Coq Require Import SpecFloat Reals Psatz.
From Flocq Require Import Core BinarySingleNaN.
Local Open Scope R_scope.

(** ** Specifications *)
(** The unit roundoff of float32. *)
Notation ur := (powerRZ 2 (-24)).
(** [x] is the exact value up to the rounding errors of [n] squared
    differences, their sum and the root. *)
Definition euclid_close (n : nat) (exact x : R) : Prop :=
  (1 - ur) ^ (n / 2 + 4) * exact - sqrt (INR n) * powerRZ 2 (-75) <= x /\
  x <= (1 + ur) ^ (n / 2 + 4) * (exact + sqrt (INR n) * powerRZ 2 (-75)).
(** [x] is at most [y], up to the rounding errors of two such distances. *)
Definition nearly_le (n : nat) (x y : R) : Prop :=
  (1 - ur) ^ (n / 2 + 4) * x - sqrt (INR n) * powerRZ 2 (-75) <=
  (1 + ur) ^ (n / 2 + 4) * (y + sqrt (INR n) * powerRZ 2 (-75)).
(** Vectors of one dimension with finite components, not astronomically far. *)
Record measurable (n : nat) (v w : fvec) : Prop := MkMeasurable {
  ms_v : length v = n; ms_w : length w = n;
  ms_fv : Forall f32_finite v; ms_fw : Forall f32_finite w;
  ms_n : INR n <= powerRZ 2 22;
  ms_d : real_euclid v w <= powerRZ 2 62
}.

(** Evaluating [f32_real] on a given pattern. *)
Lemma f32_real_val b : f32_finite b -> f32_real b = fval (f32_val b).
Proof. intros H. symmetry. by apply f32_val_real. Qed.
Lemma real_0 : f32_real 0%N = 0.
Proof. rewrite f32_real_val by done. done. Qed.
Lemma real_1 : f32_real 1065353216%N = 1.
Proof. rewrite f32_real_val by done. unfold fval. change (f32_val 1065353216%N) with (S754_finite false 8388608 (-23)).
  unfold SF2R, F2R. simpl. lra. Qed.
Lemma real_3 : f32_real 1077936128%N = 3.
Proof. rewrite f32_real_val by done. unfold fval. change (f32_val 1077936128%N) with (S754_finite false 12582912 (-22)).
  unfold SF2R, F2R. simpl. lra. Qed.
Lemma real_4 : f32_real 1082130432%N = 4.
Proof. rewrite f32_real_val by done. unfold fval. change (f32_val 1082130432%N) with (S754_finite false 8388608 (-21)).
  unfold SF2R, F2R. simpl. lra. Qed.

(** ** C78 *)
Theorem C78_euclidean_accuracy_partial :
  forall n v w, measurable n v w ->
    exists d, euclidean v w = Val d /\ fin32 d /\ euclid_close n (real_euclid v w) (fval d).
Proof.
  intros n v w [<- Hw Hfv Hfw Hn Hd].
  destruct (euclidean_bounds v w) as (d & H1 & H2 & H3 & H4); try done.
  exists d. split; [done|]. split; [done|]. rewrite u32_val in H3, H4. split; [exact H3|exact H4].
Qed.
Print Assumptions C78_euclidean_accuracy_partial.

Lemma measurable_34 : measurable 2 [1077936128; 0]%N [0; 1082130432]%N /\ real_euclid [1077936128; 0]%N [0; 1082130432]%N = 5.
Proof.
  assert (real_euclid [1077936128; 0]%N [0; 1082130432]%N = 5) as E.
  { unfold real_euclid, real_sq. rewrite real_0, real_3, real_4.
    replace ((3 - 0) ^ 2 + ((0 - 4) ^ 2 + 0)) with (Rsqr 5) by (unfold Rsqr; lra). apply sqrt_Rsqr. lra. }
  split; [|exact E]. split; [done|done|by repeat constructor|by repeat constructor| |].
  - rewrite powerRZ_bpow. apply Rle_trans with (bpow radix2 1); [simpl; lra|by apply bpow_le].
  - rewrite E, powerRZ_bpow. apply Rle_trans with (bpow radix2 3); [simpl; lra|by apply bpow_le].
Qed.
Example C78_case :
  exists d, euclidean [1077936128; 0]%N [0; 1082130432]%N = Val d /\ fval d = 5 /\
    measurable 2 [1077936128; 0]%N [0; 1082130432]%N /\ real_euclid [1077936128; 0]%N [0; 1082130432]%N = 5.
Proof.
  exists (S754_finite false 10485760 (-21)). split; [vm_compute; reflexivity|].
  split; [unfold fval, SF2R, F2R; simpl; lra|]. exact measurable_34.
Qed.

(** Without the bound: an exact distance of 2^100, which float32 can hold, is
    reported as infinite, because its square is computed on the way. *)
Theorem C78_euclidean_accuracy_refuted :
  exists v w b, length v = length w /\ Forall f32_finite v /\ Forall f32_finite w /\ f32_finite b /\
    real_euclid v w = f32_real b /\ euclidean v w = Val (S754_infinity false).
Proof.
  exists [1904214016]%N, [0]%N, 1904214016%N. split; [done|]. split; [by repeat constructor|].
  split; [by repeat constructor|]. split; [done|]. split; [|vm_compute; reflexivity].
  unfold real_euclid, real_sq. rewrite real_0.
  replace ((f32_real 1904214016%N - 0) ^ 2 + 0) with (Rsqr (f32_real 1904214016%N)) by (unfold Rsqr; ring).
  apply sqrt_Rsqr. rewrite f32_real_val by done. unfold fval.
  change (f32_val 1904214016%N) with (S754_finite false 8388608 77). cbn [SF2R cond_Zopp]. by apply F2R_ge_0.
Qed.
Print Assumptions C78_euclidean_accuracy_refuted.

(** Two different vectors at distance 0: the square underflows. *)
Theorem C78_euclidean_distinct_at_zero_refuted :
  exists v w, length v = length w /\ Forall f32_finite v /\ Forall f32_finite w /\
    0 < real_euclid v w /\ euclidean v w = Val (S754_zero false).
Proof.
  exists [394264576]%N, [0]%N. split; [done|]. split; [by repeat constructor|].
  split; [by repeat constructor|]. split; [|vm_compute; reflexivity].
  unfold real_euclid, real_sq. rewrite real_0. apply sqrt_lt_R0.
  assert (0 < f32_real 394264576%N); [|simpl; nra]. rewrite f32_real_val by done. unfold fval.
  change (f32_val 394264576%N) with (S754_finite false 8388608 (-103)). cbn [SF2R cond_Zopp]. by apply F2R_gt_0.
Qed.
Print Assumptions C78_euclidean_distinct_at_zero_refuted.

(** ** C79 *)
Lemma close_order n x y dx dy :
  euclid_close n x dx -> euclid_close n y dy -> dx <= dy -> nearly_le n x y.
Proof. unfold euclid_close, nearly_le. lra. Qed.

Theorem C79_computed_order_partial :
  forall n q v w dv dw,
    measurable n v q -> measurable n w q -> euclidean v q = Val dv -> euclidean w q = Val dw ->
    fltb dw dv = false -> nearly_le n (real_euclid v q) (real_euclid w q).
Proof.
  intros n q v w dv dw Hv Hw Ev Ew Hlt.
  destruct (C78_euclidean_accuracy_partial n v q Hv) as (dv' & Ev' & Fv & Cv).
  destruct (C78_euclidean_accuracy_partial n w q Hw) as (dw' & Ew' & Fw & Cw).
  rewrite Ev in Ev'. injection Ev' as <-. rewrite Ew in Ew'. injection Ew' as <-.
  apply (close_order n _ _ (fval dv) (fval dw)); [done|done|].
  unfold fltb in Hlt. rewrite (SFltb_real 24 128) in Hlt by done.
  destruct (Rlt_bool_spec (fval dw) (fval dv)); [done|lra].
Qed.
Print Assumptions C79_computed_order_partial.

Lemma real_b : f32_real 1065353217%N = 1 + powerRZ 2 (-23).
Proof.
  rewrite f32_real_val by done. unfold fval. change (f32_val 1065353217%N) with (S754_finite false 8388609 (-23)).
  unfold SF2R, F2R. simpl. lra.
Qed.
Lemma real_c : f32_real 964689920%N = powerRZ 2 (-12).
Proof.
  rewrite f32_real_val by done. unfold fval. change (f32_val 964689920%N) with (S754_finite false 8388608 (-35)).
  unfold SF2R, F2R. simpl. lra.
Qed.

(** Six components: one of size 1 and five of 2^-12, against 1 + 2^-23 alone. *)
Definition ex79_q : fvec := [0; 0; 0; 0; 0; 0]%N.
Definition ex79_v : fvec := [1065353216; 964689920; 964689920; 964689920; 964689920; 964689920]%N.
Definition ex79_w : fvec := [1065353217; 0; 0; 0; 0; 0]%N.
Lemma ex79_sq : real_sq ex79_v ex79_q = 1 + 5 * powerRZ 2 (-24) /\
  real_sq ex79_w ex79_q = 1 + 4 * powerRZ 2 (-24) + powerRZ 2 (-46).
Proof.
  split.
  - unfold ex79_v, ex79_q, real_sq. rewrite real_0, real_1, real_c. simpl. lra.
  - unfold ex79_w, ex79_q, real_sq. rewrite real_0, real_b. simpl. lra.
Qed.
Lemma ex79_measurable : measurable 6 ex79_v ex79_q /\ measurable 6 ex79_w ex79_q.
Proof.
  assert (H6 : INR 6 <= powerRZ 2 22).
  { rewrite powerRZ_bpow. apply Rle_trans with (bpow radix2 3); [simpl; lra|by apply bpow_le]. }
  assert (Hs : forall v', real_sq v' ex79_q <= 4 -> real_euclid v' ex79_q <= powerRZ 2 62).
  { intros v' H. rewrite powerRZ_bpow. apply Rle_trans with (bpow radix2 1); [|by apply bpow_le].
    unfold real_euclid. simpl (bpow radix2 1). apply Rle_trans with (sqrt (Rsqr 2)); [|rewrite sqrt_Rsqr; lra].
    apply sqrt_le_1_alt. unfold Rsqr. lra. }
  destruct ex79_sq as [Hv Hw]. split.
  - split; [done|done|by repeat constructor|by repeat constructor|exact H6|]. apply Hs. rewrite Hv. simpl. lra.
  - split; [done|done|by repeat constructor|by repeat constructor|exact H6|]. apply Hs. rewrite Hw. simpl. lra.
Qed.
Lemma ex79_order : real_euclid ex79_w ex79_q < real_euclid ex79_v ex79_q.
Proof.
  destruct ex79_sq as [Hv Hw]. unfold real_euclid. apply sqrt_lt_1_alt. rewrite Hv, Hw. simpl. lra.
Qed.

(** Nearly tied distances may come out in the wrong order. *)
Theorem C79_computed_order_refuted :
  exists n q v w dv dw,
    measurable n v q /\ measurable n w q /\ euclidean v q = Val dv /\ euclidean w q = Val dw /\
    fltb dv dw = true /\ real_euclid w q < real_euclid v q.
Proof.
  exists 6%nat, ex79_q, ex79_v, ex79_w, (S754_finite false 8388608 (-23)), (S754_finite false 8388609 (-23)).
  destruct ex79_measurable as [Hv Hw]. split; [exact Hv|]. split; [exact Hw|].
  split; [vm_compute; reflexivity|]. split; [vm_compute; reflexivity|]. split; [vm_compute; reflexivity|].
  exact ex79_order.
Qed.
Print Assumptions C79_computed_order_refuted.

(** ** C80 *)
Theorem C80_dot_accuracy_partial :
  forall n v w,
    length v = n -> length w = n -> (n mod 8 = 0)%nat -> Forall f32_finite v -> Forall f32_finite w ->
    INR n <= powerRZ 2 22 -> real_absdot v w <= powerRZ 2 124 ->
    exists d, dot v w = Val d /\ fin32 d /\
      Rabs (fval d - real_dot v w) <=
        ((1 + ur) ^ (n + 1) - 1) * real_absdot v w + INR n * (1 + ur) ^ n * powerRZ 2 (-150).
Proof.
  intros n v w <- Hw Hm Hfv Hfw Hn Ha. rewrite <- u32_val. by apply dot_bounds.
Qed.
Print Assumptions C80_dot_accuracy_partial.

Example C80_case :
  let v := [1077936128; 0; 0; 0; 0; 0; 0; 1065353216]%N in
  exists d, dot v v = Val d /\ fval d = 10 /\ real_dot v v = 10 /\ real_absdot v v = 10 /\ Forall f32_finite v.
Proof.
  cbn zeta. exists (S754_finite false 10485760 (-20)). split; [vm_compute; reflexivity|].
  split; [unfold fval, SF2R, F2R; simpl; lra|]. unfold real_dot, real_absdot. rewrite real_0, real_1, real_3.
  split; [lra|]. split; [|by repeat constructor].
  rewrite !Rmult_0_l, Rabs_R0. rewrite !Rabs_pos_eq by lra. lra.
Qed.

(** An inner product that is not small compared with the products: with
    cancellation nothing is left of it.  The exact value is 1, the computed 0. *)
Theorem C80_dot_accuracy_refuted :
  exists v w, length v = 8%nat /\ length w = 8%nat /\ Forall f32_finite v /\ Forall f32_finite w /\
    real_dot v w = 1 /\ dot v w = Val (S754_zero false).
Proof.
  exists [1904214016; 1065353216; 4051697664; 0; 0; 0; 0; 0]%N,
    [1065353216; 1065353216; 1065353216; 0; 0; 0; 0; 0]%N.
  split; [done|]. split; [done|]. split; [by repeat constructor|]. split; [by repeat constructor|].
  split; [|vm_compute; reflexivity].
  assert (f32_real 4051697664%N = - f32_real 1904214016%N) as E.
  { rewrite !f32_real_val by done. unfold fval.
    change (f32_val 4051697664%N) with (SFopp (S754_finite false 8388608 77)).
    change (f32_val 1904214016%N) with (S754_finite false 8388608 77). by apply (SFopp_fin 24 128). }
  unfold real_dot. rewrite E, real_0, real_1. lra.
Qed.
Print Assumptions C80_dot_accuracy_refuted.

(** ** C81 *)
(** All vectors of the history and the query can be measured against it. *)
Definition all_measurable (n : nat) (q : fvec) (ops : list iop) : Prop :=
  Forall f32_finite q /\ length q = n /\ forall v, v ∈ hist_vecs ops -> measurable n v q.

Lemma measurable_no_nan P n q ops :
  hp_dist P = Euclidean -> all_measurable n q ops -> no_nan P (q :: hist_vecs ops).
Proof.
  intros HE (Hq & Hl & Hm) v w d Hv Hw E. rewrite HE in E. cbn [dist_func] in E.
  assert (Hf : forall x, x ∈ q :: hist_vecs ops -> Forall f32_finite x).
  { intros x [-> | Hx]%elem_of_cons; [done|]. apply (ms_fv n x q). by apply Hm. }
  apply (C30_euclidean_finite_no_nan v w d); auto.
Qed.

Lemma ins_vec level v id ops : IInsert level v id ∈ ops -> v ∈ hist_vecs ops.
Proof.
  intros H. unfold hist_vecs. apply elem_of_list_join. exists (iop_vecs (IInsert level v id)).
  split; [cbn; set_solver|]. by apply elem_of_list_fmap_1.
Qed.

Lemma sorted_lookup {A} (R : A -> A -> Prop) (l : list A) i j a b :
  StronglySorted R l -> (i < j)%nat -> l !! i = Some a -> l !! j = Some b -> R a b.
Proof.
  intros H. revert i j. induction H as [|x l H IH Hx]; intros i j Hij Ha Hb; [done|].
  destruct j as [|j]; [lia|]. destruct i as [|i].
  - injection Ha as <-. rewrite Forall_forall in Hx. apply Hx. by eapply elem_of_list_lookup_2.
  - apply (IH i j); [lia|done|done].
Qed.

(** The answers of every search come in the order of the exact distances, up to rounding. *)
Theorem C81_answers_in_exact_order_partial :
  forall P n fuel ops q k,
    params_ok P -> hp_dist P = Euclidean -> hist_ok P n (ops ++ [ISearch q k]) ->
    (length (hist_ins ops) <= fuel)%nat -> all_measurable n q ops ->
    exists s rs res, irun P fuel (ops ++ [ISearch q k]) empty_st = Some (s, rs ++ [Val res]) /\
      forall i j a b, (i < j)%nat -> res !! i = Some a -> res !! j = Some b ->
        exists la va lb vb, IInsert la va (e_id a) ∈ ops /\ IInsert lb vb (e_id b) ∈ ops /\
          nearly_le n (real_euclid va q) (real_euclid vb q).
Proof.
  intros P n fuel ops q k HP HE Hok Hf Hm.
  destruct (C16_search_answers P n fuel ops q k HP Hok Hf (measurable_no_nan P n q ops HE Hm))
    as (s & rs & res & Hr & HA).
  exists s, rs, res. split; [exact Hr|]. intros i j a b Hij Ha Hb.
  destruct (ans_stored _ _ _ _ _ HA a) as (_ & la & va & Hia & Da); [by eapply elem_of_list_lookup_2|].
  destruct (ans_stored _ _ _ _ _ HA b) as (_ & lb & vb & Hib & Db); [by eapply elem_of_list_lookup_2|].
  exists la, va, lb, vb. split; [done|]. split; [done|]. rewrite HE in Da, Db.
  destruct Hm as (_ & _ & Hm).
  apply (C79_computed_order_partial n q va vb (e_dist a) (e_dist b)); [by eapply Hm, ins_vec..|done|done|].
  pose proof (ans_sorted _ _ _ _ _ HA) as Hs.
  exact (sorted_lookup _ res i j a b Hs Hij Ha Hb).
Qed.
Print Assumptions C81_answers_in_exact_order_partial.

(** A small collection (the hypotheses of C18): nothing is left out that is
    really nearer than one given, up to rounding. *)
Theorem C81_small_collections_exact_partial :
  forall P n fuel ops q k,
    params_ok P -> hp_dist P = Euclidean -> hist_ok P n (ops ++ [ISearch q k]) ->
    (length (hist_ins ops) <= fuel)%nat -> all_measurable n q ops -> hp_heuristic P = false ->
    (length (hist_ins ops) <= S (hp_m P))%nat -> (length (hist_ins ops) <= S (hp_efc P))%nat ->
    (length (hist_ins ops) <= hp_ef P)%nat ->
    exists s rs res, irun P fuel (ops ++ [ISearch q k]) empty_st = Some (s, rs ++ [Val res]) /\
      length res = Nat.min (Z.to_nat k) (length (live_ids ops)) /\
      forall e level v id, e ∈ res -> IInsert level v id ∈ ops -> id ∈ live_ids ops -> id ∉ e_id <$> res ->
        exists le ve, IInsert le ve (e_id e) ∈ ops /\ nearly_le n (real_euclid ve q) (real_euclid v q).
Proof.
  intros P n fuel ops q k HP HE Hok Hf Hm Hh H1 H2 H3.
  destruct (C18_small_collections_exact_partial P n fuel ops q k HP Hok Hf (measurable_no_nan P n q ops HE Hm) Hh H1 H2 H3)
    as (s & rs & res & Hr & HA).
  exists s, rs, res. split; [exact Hr|]. split; [apply HA|]. intros e level v id He Hi Hlive Hnot.
  destruct (ek_live _ _ _ _ _ HA e He) as (_ & le & ve & Hie & De).
  exists le, ve. split; [done|]. destruct Hm as (_ & _ & Hm).
  pose proof (Hm v (ins_vec _ _ _ _ Hi)) as Mv. pose proof (Hm ve (ins_vec _ _ _ _ Hie)) as Mve.
  destruct (C78_euclidean_accuracy_partial n v q Mv) as (d & Ed & _).
  pose proof (ek_best _ _ _ _ _ HA e level v id d He Hi Hlive Hnot) as Hb.
  rewrite HE in Hb, De. specialize (Hb Ed).
  by apply (C79_computed_order_partial n q ve v (e_dist e) d).
Qed.
Print Assumptions C81_small_collections_exact_partial.

(** Points 0 and 3 asked for 1: the answers are at the exact distances 1 and 2. *)
Example C81_case :
  let P := HParams 3 3 8 16 false Euclidean in
  let ops := [IInsert 0 [0] 1; IInsert 0 [1077936128] 2]%N in
  let q := [1065353216]%N in
  params_ok P /\ hist_ok P 1 (ops ++ [ISearch q 2]) /\ all_measurable 1 q ops /\
  last_ids (irun P 2 (ops ++ [ISearch q 2]) empty_st) = Some [1; 2]%N /\
  real_euclid [0]%N q = 1 /\ real_euclid [1077936128]%N q = 2.
Proof.
  cbn zeta.
  assert (E1 : real_euclid [0]%N [1065353216]%N = 1).
  { unfold real_euclid, real_sq. rewrite real_0, real_1.
    replace ((0 - 1) ^ 2 + 0) with (Rsqr 1) by (unfold Rsqr; lra). apply sqrt_Rsqr. lra. }
  assert (E2 : real_euclid [1077936128]%N [1065353216]%N = 2).
  { unfold real_euclid, real_sq. rewrite real_3, real_1.
    replace ((3 - 1) ^ 2 + 0) with (Rsqr 2) by (unfold Rsqr; lra). apply sqrt_Rsqr. lra. }
  split; [by constructor; cbn; lia|]. split.
  { apply hist_ok_check; [done|]. vm_compute. reflexivity. }
  split.
  { split; [by repeat constructor|]. split; [done|].
    assert (H1 : INR 1 <= powerRZ 2 22).
    { rewrite powerRZ_bpow. apply Rle_trans with (bpow radix2 0); [simpl; lra|by apply bpow_le]. }
    assert (H2 : 2 <= powerRZ 2 62).
    { rewrite powerRZ_bpow. apply Rle_trans with (bpow radix2 1); [simpl; lra|by apply bpow_le]. }
    intros v Hv. cbn in Hv. apply elem_of_cons in Hv as [-> | Hv].
    - split; [done|done|by repeat constructor|by repeat constructor|exact H1|]. lra.
    - apply elem_of_list_singleton in Hv as ->.
      split; [done|done|by repeat constructor|by repeat constructor|exact H1|]. lra. }
  split; [vm_compute; reflexivity|]. by split.
Qed.

(** The same two vectors in an index: the further one is answered first. *)
Theorem C81_answers_in_exact_order_refuted :
  exists P n ops q k s rs res,
    params_ok P /\ hp_dist P = Euclidean /\ hist_ok P n (ops ++ [ISearch q k]) /\ all_measurable n q ops /\
    irun P 2 (ops ++ [ISearch q k]) empty_st = Some (s, rs ++ [Val res]) /\ e_id <$> res = [1; 2]%N /\
    exists l1 v1 l2 v2, IInsert l1 v1 1%N ∈ ops /\ IInsert l2 v2 2%N ∈ ops /\ real_euclid v2 q < real_euclid v1 q.
Proof.
  set (P := HParams 3 3 8 16 false Euclidean).
  set (ops := [IInsert 0 ex79_v 1%N; IInsert 0 ex79_w 2%N]).
  assert (H : last_ids (irun P 2 (ops ++ [ISearch ex79_q 2]) empty_st) = Some [1; 2]%N) by (vm_compute; reflexivity).
  apply last_ids_inv in H as (s & rs & res & Hr & Hids).
  exists P, 6%nat, ops, ex79_q, 2%Z, s, rs, res.
  split; [by constructor; cbn; lia|]. split; [done|].
  split; [apply hist_ok_check; [done|]; vm_compute; reflexivity|].
  split.
  { split; [by repeat constructor|]. split; [done|]. destruct ex79_measurable as [Hv Hw].
    intros v Hi. change (hist_vecs ops) with [ex79_v; ex79_w] in Hi.
    apply elem_of_cons in Hi as [-> | ->%elem_of_list_singleton]; done. }
  split; [exact Hr|]. split; [exact Hids|].
  exists 0%nat, ex79_v, 0%nat, ex79_w. split; [by left|]. split; [by right; left|]. exact ex79_order.
Qed.
Print Assumptions C81_answers_in_exact_order_refuted.
