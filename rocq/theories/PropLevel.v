(** The random level of a vertex: C82, C83. *)
From Verif Require Import GoBase FloatModel HeapModel ProgModel StateModel WalModel HnswModel CollModel DBModel LevelModel
  FloatReal DistReal LevelReal.
From Coq Require Import SpecFloat Reals Psatz.
From Flocq Require Import Core.
Local Open Scope R_scope.

(** ** Small specifications *)
(** What [bad] may be: what amd64 and arm64 make of a conversion that does not fit. *)
Definition machine (bad : Z) : Prop := (bad = - 2 ^ 63 \/ bad = 2 ^ 63 - 1)%Z.
(** Draw [k] of the generator (one of 2^63) is used and gives at least level [l]. *)
Definition gives (log : f64 -> f64) (bad m : Z) (l : nat) (k : N) : Prop :=
  (0 < k < 2 ^ 63)%N /\ exists r lev, draw k = Some r /\ choose_level log bad m r = Val lev /\ (l <= lev)%nat.

(** ** C82 *)
(** For M from 2 on and every draw but 0 a level from 0 to 63 results, and the
    insertion goes on as [hnsw_insert] with that level. *)
Theorem C82_level_chosen_partial :
  forall log bad m k r,
    log_ok log -> (2 <= m < 2 ^ 63)%Z -> (0 < k < 2 ^ 63)%N -> draw k = Some r ->
    exists l, choose_level log bad m r = Val l /\ (l <= 63)%nat /\
      forall P tid fuel vec id,
        insert_drawn log bad P tid fuel m r vec id = hnsw_insert P tid fuel l vec id.
Proof.
  intros log bad m k r HL Hm Hk Hd. destruct (draw_real k r Hk Hd) as (Fr & Hr & _).
  destruct (choose_level_real log bad m r HL Hm Fr Hr) as (l & Hc & Hl & _).
  exists l. split; [done|]. split; [done|]. intros P tid fuel vec id. unfold insert_drawn. by rewrite Hc.
Qed.
Print Assumptions C82_level_chosen_partial.

(** M = 1 is accepted; then every insertion after the first panics, whatever
    is drawn. *)
Theorem C82_one_refuted :
  exists c p, validate c = Val tt /\ cf_index c = "hnsw"%string /\ cf_params c = IPOk p /\ r_m p = 1%Z /\
    forall log bad k r, log_ok log -> machine bad -> (k < 2 ^ 63)%N -> draw k = Some r ->
      forall P tid fuel vec id s, once s = true ->
        exec (insert_drawn log bad P tid fuel (r_m p) r vec id) s = Some (s, Pan PMake).
Proof.
  exists (Config "a" "hnsw" "" "text" (IPOk (Raw 1 16 16 16 false "euclidean_distance")) JNull []),
    (Raw 1 16 16 16 false "euclidean_distance").
  split; [done|]. split; [done|]. split; [done|]. split; [done|]. cbn [r_m].
  intros log bad k r HL Hb Hk Hd P tid fuel vec id s Hs.
  unfold insert_drawn. rewrite (choose_one log bad k r HL Hb Hk Hd).
  destruct s. simpl in Hs. subst. reflexivity.
Qed.
Print Assumptions C82_one_refuted.

(** Draw 0 panics for every M that is accepted. *)
Theorem C82_zero_refuted :
  exists k r, (k < 2 ^ 63)%N /\ draw k = Some r /\
    forall log bad m, log_ok log -> machine bad -> (1 <= m < 2 ^ 63)%Z ->
      choose_level log bad m r = Pan PMake.
Proof.
  exists 0%N, (S754_zero false). split; [done|]. split; [vm_compute; reflexivity|].
  intros log bad m HL Hb Hm. by apply choose_zero.
Qed.
Print Assumptions C82_zero_refuted.

(** The contract of math.Log can be met, and there are draws. *)
Example C82_case :
  log_ok log_round /\ machine (- 2 ^ 63) /\
  draw (2 ^ 62) = Some (S754_finite false 4503599627370496 (-53)) /\
  draw 1 = Some (S754_finite false 4503599627370496 (-115)) /\ draw (2 ^ 63 - 1) = None.
Proof.
  split; [exact log_round_ok|]. split; [by left|]. split; [vm_compute; reflexivity|].
  split; vm_compute; reflexivity.
Qed.

(** ** C83 *)
(** A list of different numbers from 1 to [b] has at most [b] elements. *)
Lemma count_below (ks : list N) b : NoDup ks -> (forall k, k ∈ ks -> (0 < k)%N /\ IZR (Z.of_N k) <= b) ->
  0 <= b -> INR (length ks) <= b.
Proof.
  intros Hnd Hks Hb.
  assert (length ks <= Z.to_nat (Zfloor b))%nat as Hl.
  { rewrite <- (seq_length (Z.to_nat (Zfloor b)) 1), <- (fmap_length N.of_nat).
    apply submseteq_length, NoDup_submseteq; [done|]. intros k Hk. destruct (Hks k Hk) as [H0 H1].
    apply Zfloor_lub in H1. apply elem_of_list_fmap. exists (N.to_nat k). split; [by rewrite N2Nat.id|].
    apply elem_of_seq. lia. }
  apply le_INR in Hl. eapply Rle_trans; [exact Hl|]. rewrite INR_IZR_INZ, Z2Nat.id.
  - apply Zfloor_lb.
  - by apply Zfloor_lub.
Qed.

(** At most the fraction M^-l of the 2^63 draws gives level [l] or more, up to
    a relative error of 2^-42. *)
Theorem C83_level_fraction_upper :
  forall log bad m l ks,
    log_ok log -> (2 <= m <= 2 ^ 53)%Z -> NoDup ks -> (forall k, k ∈ ks -> gives log bad m l k) ->
    INR (length ks) <= powerRZ 2 63 * (1 + powerRZ 2 (-42)) / IZR m ^ l.
Proof.
  intros log bad m l ks HL Hm Hnd Hks. apply count_below; [done| |].
  - intros k Hk. destruct (Hks k Hk) as (H0 & r & lev & Hd & Hc & Hl). split; [lia|].
    by apply (level_upper log bad m k r l lev).
  - apply Rmult_le_pos; [apply Rmult_le_pos|].
    + rewrite powerRZ_bpow. apply bpow_ge_0.
    + rewrite powerRZ_bpow. pose proof (bpow_gt_0 radix2 (-42)). lra.
    + left. apply Rinv_0_lt_compat, pow_lt. apply (IZR_lt 0). lia.
Qed.
Print Assumptions C83_level_fraction_upper.

(** And no fewer. *)
Theorem C83_level_fraction_lower :
  forall log bad m l,
    log_ok log -> (2 <= m <= 2 ^ 53)%Z ->
    exists ks, NoDup ks /\ (forall k, k ∈ ks -> gives log bad m l k) /\
      powerRZ 2 63 * (1 - powerRZ 2 (-42)) / IZR m ^ l - 1 < INR (length ks).
Proof.
  intros log bad m l HL Hm. set (b := powerRZ 2 63 * (1 - powerRZ 2 (-42)) / IZR m ^ l).
  assert (0 <= b) as Hb.
  { apply Rmult_le_pos; [apply Rmult_le_pos|].
    - rewrite powerRZ_bpow. apply bpow_ge_0.
    - rewrite powerRZ_bpow. assert (bpow radix2 (-42) <= bpow radix2 0) by (by apply bpow_le). simpl (bpow radix2 0) in *. lra.
    - left. apply Rinv_0_lt_compat, pow_lt. apply (IZR_lt 0). lia. }
  exists (N.of_nat <$> seq 1 (Z.to_nat (Zfloor b))). split; [|split].
  - apply NoDup_fmap_2; [intros x y H; lia|]. apply NoDup_seq.
  - intros k (n & -> & Hn%elem_of_seq)%elem_of_list_fmap.
    assert (0 < N.of_nat n)%N as H0 by lia.
    destruct (level_lower log bad m (N.of_nat n) l HL Hm H0) as [H1 H2].
    { fold frac_err in b. fold b. rewrite nat_N_Z. apply Rle_trans with (IZR (Zfloor b)); [|apply Zfloor_lb].
      apply IZR_le. lia. }
    split; [lia|exact H2].
  - rewrite fmap_length, seq_length, INR_IZR_INZ, Z2Nat.id by (by apply Zfloor_lub).
    pose proof (Zfloor_ub b). lra.
Qed.
Print Assumptions C83_level_fraction_lower.

(** M = 16, level 1: about 2^59 of the 2^63 draws. *)
Example C83_case :
  (2 <= 16 <= 2 ^ 53)%Z /\ exists ks, NoDup ks /\ (forall k, k ∈ ks -> gives log_round (- 2 ^ 63) 16 1 k) /\
    powerRZ 2 58 <= INR (length ks) <= powerRZ 2 60.
Proof.
  split; [done|].
  destruct (C83_level_fraction_lower log_round (- 2 ^ 63) 16 1 log_round_ok ltac:(done)) as (ks & H1 & H2 & H3).
  pose proof (C83_level_fraction_upper log_round (- 2 ^ 63) 16 1 ks log_round_ok ltac:(done) H1 H2) as H4.
  exists ks. split; [done|]. split; [done|]. revert H3 H4. generalize (INR (length ks)). intros n H3 H4.
  rewrite powerRZ_bpow in *. rewrite pow_1 in *.
  assert (bpow radix2 (-42) <= / 16) as Hs.
  { apply Rle_trans with (bpow radix2 (-4)); [by apply bpow_le|simpl; lra]. }
  pose proof (bpow_gt_0 radix2 (-42)) as Hp. rewrite !powerRZ_bpow in *.
  assert (bpow radix2 63 = 32 * bpow radix2 58) as E1 by (change 63%Z with (5 + 58)%Z; rewrite bpow_plus; simpl (bpow radix2 5); lra).
  assert (bpow radix2 60 = 4 * bpow radix2 58) as E2 by (change 60%Z with (2 + 58)%Z; rewrite bpow_plus; simpl (bpow radix2 2); lra).
  rewrite E1 in *. rewrite E2.
  assert (8 <= bpow radix2 58) as H8 by (apply Rle_trans with (bpow radix2 3); [simpl; lra|by apply bpow_le]).
  set (w := bpow radix2 58) in *. set (d := bpow radix2 (-42)) in *. split; nra.
Qed.
