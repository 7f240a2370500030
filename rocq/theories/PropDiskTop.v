(** Properties of DiskAnn, the index over several memory indexes: C70-C77. *)
From Verif Require Import GoBase FloatModel HeapModel MMHeapModel DiskAnnModel DiskTopModel.
From Verif Require Import ProofBase FloatProofs HeapProofs MMHeapProofs PropMMHeap CodecProofs PropFloat DiskAnnProofs DiskAnnCodec PropDiskAnn DiskTopProofs.
From Coq Require Import SpecFloat Sorted.
Open Scope nat_scope.

(** A distance function that answers for any two vectors of dimension [dim]. *)
Definition total_on (dim : N) (dist : fvec -> fvec -> out fl) : Prop :=
  forall x y, N.of_nat (length x) = dim -> N.of_nat (length y) = dim -> exists d, dist x y = Val d.
(** What the executions are about: any settings with such a distance function,
    any schedule of fewer than 2^64-1 inserts. *)
Definition proper (c : dcfg) : Prop := total_on (dc_dim c) (dc_fn c).
Definition reached (c : dcfg) (evs : list dev) (s : dsys) : Prop :=
  (N.of_nat (ncalls evs) < 2 ^ 64 - 1)%N /\ exists fuel, drun c fuel (dinit c) evs = Val s.

Lemma reached_inv c evs s : proper c -> reached c evs s -> DInv c s.
Proof. intros Ht [Hn [fuel E]]. apply (drun_inv c fuel evs Ht (dinit c)); [apply DInv_init|exact Hn|exact E]. Qed.

Lemma reached_witness c fuel evs (P : dsys -> Prop) : (N.of_nat (ncalls evs) <? 2 ^ 64 - 1)%N = true ->
  (match drun c fuel (dinit c) evs with Val s => P s | _ => False end) -> exists s, reached c evs s /\ P s.
Proof.
  intros Hn H. destruct (drun c fuel (dinit c) evs) as [s|?|?] eqn:E; [|destruct H..]. exists s. split; [|exact H].
  split; [by apply N.ltb_lt|by exists fuel].
Qed.

(** ** C70 Accepted vectors are stored under their own ids *)
Theorem C70_accepted_is_stored :
  forall c evs s, proper c -> reached c evs s ->
    (* an accepted vector is in exactly one memory index, which searches look at *)
    (forall i cl id p, ds_calls s !! i = Some cl -> ic_pc cl = IRet id p (Val tt) ->
       (p = da_rw (ds_da s) \/ p ∈ da_ro (ds_da s)) /\
       (exists mi v, da_mem (ds_da s) !! p = Some mi /\ mi_graph mi !! id = Some v /\ dv_vec v = ic_vec cl) /\
       (forall p' mi', p' <> p -> da_mem (ds_da s) !! p' = Some mi' -> mi_graph mi' !! id = None)) /\
    (* no two calls get the same id *)
    (forall i j ci cj id p r p' r', ds_calls s !! i = Some ci -> ds_calls s !! j = Some cj ->
       ic_pc ci = IRet id p r -> ic_pc cj = IRet id p' r' -> i = j) /\
    (* nothing else is stored *)
    (forall p mi id v, da_mem (ds_da s) !! p = Some mi -> mi_graph mi !! id = Some v ->
       exists i cl, ds_calls s !! i = Some cl /\ ic_pc cl = IRet id p (Val tt) /\ dv_vec v = ic_vec cl).
Proof.
  intros c evs s Ht Hr. apply reached_inv in Hr as H; [|done]. split_and!.
  - intros i cl id p Hi Hpc.
    destruct (di_ret c s H i cl id p _ Hi Hpc) as [Hp _].
    destruct (lookup_lt_is_Some_2 (da_mem (ds_da s)) p) as [mi Emi]; [rewrite (di_rw c s H); lia|].
    split; [|split].
    + destruct (decide (p = da_rw (ds_da s))) as [|Hne]; [by left|right].
      destruct (di_ro c s H) as [E|[E _]]; rewrite E; apply elem_of_seq; lia.
    + destruct (skel_inv (mi_graph mi) id id 0%N (ic_vec cl)) as (v & Hv & _ & _ & E).
      { apply (di_stored c s H p mi id _ Emi). by exists i, cl. }
      exists mi, v. done.
    + intros p' mi' Hne Em'. destruct (mi_graph mi' !! id) as [v|] eqn:Ev; [|done]. exfalso.
      apply skel_lookup in Ev. apply (di_stored c s H p' mi' id _ Em') in Ev as (j & cj & Ej & Pj & _).
      assert (j = i) as ->; [|congruence]. apply (di_uniq c s H j i cj cl id); [done|done|by rewrite Pj|by rewrite Hpc].
  - intros i j ci cj id p r p' r' Hi Hj Pi Pj. apply (di_uniq c s H i j ci cj id); [done|done|by rewrite Pi|by rewrite Pj].
  - intros p mi id v Em Ev. apply skel_lookup in Ev. apply (di_stored c s H p mi id _ Em) in Ev as (i & cl & Hi & Pi & E).
    exists i, cl. split; [done|]. split; [done|]. congruence.
Qed.
Print Assumptions C70_accepted_is_stored.

(** Two inserts under way at once: the second gets the smaller id, and both are
    stored with the vector of their own call. *)
Example C70_case :
  match drun (DCfg (Some euclidean) 10 thr12 4 1 5) 20 (dinit (DCfg (Some euclidean) 10 thr12 4 1 5))
          ([EvCall (f1 0) 7; EvCall (f1 1065353216) 8; EvStep 0; EvStep 1; EvStep 1] ++ replicate 3 (EvStep 0) ++ replicate 2 (EvStep 1)) with
  | Val s => ic_pc <$> ds_calls s = [IRet 2 0 (Val tt); IRet 1 0 (Val tt)] /\
      (fun mi => (fun v => dv_vec v) <$> (mi_graph mi !! 1%N)) <$> da_mem (ds_da s) = [Some (f1 1065353216)]
  | _ => False
  end.
Proof. vm_compute. split; reflexivity. Qed.

(** ** C71 Inserts succeed *)
(** Three inserts of dimension 1 with limit 2: the second has looked up the
    index to insert into; the third fills it; the fourth closes it. *)
Definition cfg1 (limit : N) : dcfg := DCfg (Some euclidean) 10 thr12 4 1 limit.
Lemma cfg1_proper limit : proper (cfg1 limit).
Proof. intros x y Hx Hy. apply euclidean_total. cbn in *. lia. Qed.
Definition ro_evs : list dev :=
  one_insert 0 (f1 0) 7 ++ [EvCall (f1 1065353216) 8; EvStep 1; EvStep 1; EvStep 1] ++
  one_insert 2 (f1 1073741824) 9 ++ [EvCall (f1 1077936128) 10; EvStep 3; EvStep 1].

(** False for the code under concurrency: rwIndex is read after the lock is
    given back, so the index may be closed before the vector arrives, and the
    call fails although the vector is fine. *)
Theorem C71_insert_succeeds_refuted :
  exists evs s i cl id p, reached (cfg1 2) evs s /\ ds_calls s !! i = Some cl /\
    N.of_nat (length (ic_vec cl)) = dc_dim (cfg1 2) /\ ic_pc cl = IRet id p (Err EReadOnly).
Proof.
  destruct (reached_witness (cfg1 2) 20 ro_evs (fun s => exists cl, ds_calls s !! 1 = Some cl /\
    ic_pc cl = IRet 2 0 (Err EReadOnly) /\ ic_vec cl = f1 1065353216)) as (s & Hr & cl & Ec & Hp & Hv).
  { by vm_compute. }
  { vm_compute. eexists. split; [reflexivity|]. split; reflexivity. }
  exists ro_evs, s, 1, cl, 2%N, 0. split; [exact Hr|]. split; [exact Ec|]. split; [by rewrite Hv|exact Hp].
Qed.
Print Assumptions C71_insert_succeeds_refuted.

(** What holds: no insert ever panics or waits for ever, whatever else runs;
    when it returns, it has stored the vector, or the dimension is wrong, or the
    index it had looked up is closed by now; and with one call at a time exactly
    the vectors of the right dimension are accepted. *)
Theorem C71_insert_outcome_partial :
  forall c evs s, proper c -> reached c evs s ->
    forall i cl id p r, ds_calls s !! i = Some cl -> ic_pc cl = IRet id p r ->
      (r = Val tt /\ N.of_nat (length (ic_vec cl)) = dc_dim c) \/
      (r = Err EDimensions /\ N.of_nat (length (ic_vec cl)) <> dc_dim c) \/
      (r = Err EReadOnly /\ p ∈ seq 0 (S (da_rw (ds_da s))) /\
       exists mi, da_mem (ds_da s) !! p = Some mi /\ mi_ro mi = true).
Proof.
  intros c evs s Ht Hr i cl id p r Hi Hpc. apply reached_inv in Hr as H; [|done].
  destruct (di_ret c s H i cl id p r Hi Hpc) as [Hp [?|[?|[? ?]]]]; [by left|by right; left|right; right].
  split; [done|]. split; [apply elem_of_seq; lia|done].
Qed.
Print Assumptions C71_insert_outcome_partial.

Theorem C71_inserts_end :
  forall c evs, proper c -> (N.of_nat (ncalls evs) < 2 ^ 64 - 1)%N -> Forall no_snap evs ->
    exists F s, (forall fuel, F <= fuel -> drun c fuel (dinit c) evs = Val s) /\
      exists is s', (forall fuel, F <= fuel -> drun c fuel s (EvStep <$> is) = Val s') /\
        length is <= 6 * ncalls evs /\
        forall i cl, ds_calls s' !! i = Some cl -> exists id p r, ic_pc cl = IRet id p r.
Proof.
  intros c evs Ht Hn Hs. destruct (drun_total c evs Ht Hs (dinit c) (DInv_init c) Hn) as (F & s & E & H).
  assert (Hlen : length (ds_calls s) = ncalls evs).
  { specialize (E F ltac:(lia)). assert (forall evs s0 s1, drun c F s0 evs = Val s1 -> length (ds_calls s1) = length (ds_calls s0) + ncalls evs) as HH.
    { clear. induction evs as [|e evs IH]; intros s0 s1 E; cbn [drun] in E; [apply Val_inj in E as <-; cbn; lia|].
      destruct (dstep c F s0 e) as [s2|?|?] eqn:E2; [|done..]. cbn [mbind out_bind] in E. apply IH in E. apply dstep_len in E2. destruct e; cbn [ncalls] in *; lia. }
    apply HH in E. exact E. }
  destruct (all_return c s Ht H) as (is & F2 & s' & E2 & Hr & Hl); [by rewrite Hlen|].
  exists (Nat.max F F2), s. split; [intros fuel Hf; apply E; lia|]. exists is, s'.
  split; [intros fuel Hf; apply E2; lia|]. split.
  - rewrite <- Hlen. clear - Hl. unfold todo in Hl. assert (sum_list_with (fun cl => left_of (ic_pc cl)) (ds_calls s) <= 6 * length (ds_calls s)); [|lia].
    clear Hl. induction (ds_calls s) as [|cl l IH]; cbn [sum_list_with length]; [lia|]. assert (left_of (ic_pc cl) <= 6) by (destruct (ic_pc cl); cbn; lia). lia.
  - intros i cl Hi. rewrite Forall_lookup in Hr. by apply (Hr i cl).
Qed.
Print Assumptions C71_inserts_end.

(** the memory index at the end of a complete insert *)
Definition rw_open (s : dsys) : Prop :=
  forall mi, da_mem (ds_da s) !! da_rw (ds_da s) = Some mi -> mi_ro mi = false.
Definition all_fine (c : dcfg) (s : dsys) : Prop :=
  forall i cl, ds_calls s !! i = Some cl -> exists id p, ic_pc cl = IRet id p (Val tt) /\ N.of_nat (length (ic_vec cl)) = dc_dim c \/
    ic_pc cl = IRet id p (Err EDimensions) /\ N.of_nat (length (ic_vec cl)) <> dc_dim c.

Lemma quiet_open c s : DInv c s -> da_lock (ds_da s) = false -> rw_open s.
Proof.
  intros H Hl mi Em. destruct (di_mem c s H _ mi Em) as (_ & _ & _ & Hro). destruct (mi_ro mi); [|done]. exfalso.
  destruct (proj1 Hro eq_refl) as [?|(i & cl & Hi & Ph)]; [lia|]. apply (di_lock c s H) in Hi; [congruence|done].
Qed.

(** a complete insert, explicitly *)
Lemma insert_cases c fuel s v obj s' : proper c -> DInv c s -> da_lock (ds_da s) = false ->
  (N.of_nat (S (length (ds_calls s))) < 2 ^ 64 - 1)%N ->
  drun c fuel s (one_insert (length (ds_calls s)) v obj) = Val s' ->
  exists mi mi1, da_mem (ds_da s) !! da_rw (ds_da s) = Some mi /\
    let da1 := checked c (ds_da s) mi in
    da_mem da1 !! da_rw da1 = Some mi1 /\ da_cur da1 = da_cur (ds_da s) /\
    (mi1 = mi /\ da1 = ds_da s /\ mi_count mi <> dc_limit c \/
     mi1 = new_mindex (da_cur (ds_da s)) (dc_deg c) (dc_dim c) /\ da1 = rotated c (ds_da s) mi /\ mi_count mi = dc_limit c) /\
    ((N.of_nat (length v) = dc_dim c /\ exists mi',
        skel (mi_graph mi') = <[da_cur (ds_da s) := (da_cur (ds_da s), 0%N, v)]> (skel (mi_graph mi1)) /\ mi_first mi' = mi_first mi1 /\
        mi_once mi' = true /\
        s' = DSys (with_cur (da_cur (ds_da s) + 1) (with_mem (<[da_rw da1 := mi']> (da_mem da1)) da1))
               (ds_calls s ++ [ICall v obj (IRet (da_cur (ds_da s)) (da_rw da1) (Val tt))])) \/
     (N.of_nat (length v) <> dc_dim c /\
        s' = DSys (with_cur (da_cur (ds_da s) + 1) da1)
               (ds_calls s ++ [ICall v obj (IRet (da_cur (ds_da s)) (da_rw da1) (Err EDimensions))]))).
Proof.
  intros Ht H Hl Hn E. destruct s as [da calls]. cbn [ds_da ds_calls] in *.
  destruct (lookup_lt_is_Some_2 (da_mem da) (da_rw da)) as [mi Emi]; [pose proof (di_rw c _ H); cbn in *; lia|].
  pose proof (di_cur c _ H) as Hcur. pose proof (nids_le calls). cbn [ds_da ds_calls] in Hcur.
  pose proof (quiet_open c _ H Hl mi Emi) as Hop.
  destruct (di_mem c _ H _ mi Emi) as (W1 & W2 & W3 & _).
  rewrite (one_insert_run c fuel da calls v obj mi Hl Emi) in E by lia. cbv zeta in E. cbn [with_cur da_mem da_rw] in E.
  assert (exists mi1, da_mem (checked c da mi) !! da_rw (checked c da mi) = Some mi1 /\
    (mi1 = mi /\ checked c da mi = da /\ mi_count mi <> dc_limit c \/
     mi1 = new_mindex (da_cur da) (dc_deg c) (dc_dim c) /\ checked c da mi = rotated c da mi /\ mi_count mi = dc_limit c)) as (mi1 & E1 & Hcase).
  { unfold checked. destruct (N.eqb_spec (mi_count mi) (dc_limit c)) as [Ec|Ec].
    - exists (new_mindex (da_cur da) (dc_deg c) (dc_dim c)). split; [|by right]. cbn [rotated da_mem da_rw].
      rewrite lookup_app_r by (rewrite insert_length; lia). rewrite insert_length, Nat.sub_diag. done.
    - exists mi. split; [done|by left]. }
  exists mi, mi1. split; [done|]. cbv zeta. split; [done|]. split; [unfold checked; by destruct (_ =? _)%N|]. split; [done|].
  rewrite E1 in E. cbn [or_pan mbind out_bind] in E.
  assert (wfm mi1 /\ mi_dim mi1 = dc_dim c /\ mi_ro mi1 = false) as (V1 & V2 & V3).
  { destruct Hcase as [(-> & _)|(-> & _)]; [done|]. split_and!; try done; [apply wfm_new..]. }
  pose proof (minsert_spec (dc_fn c) (da_del da) fuel mi1 v (dc_list c) (dc_thr c) (da_cur da) (dist_total_at c Ht mi1 V2) V1) as Hsp.
  destruct (minsert _ _ _ _ _ _ _ _) as [mi'|e|?] in E, Hsp; [| |done]; apply Val_inj in E as <-.
  - left. destruct Hsp as (S1 & S2 & S3 & S4 & S5 & S6 & S7 & S8 & S9). split; [congruence|]. exists mi'. done.
  - right. destruct Hsp as [[-> Hs]|(-> & _ & Hs)]; [congruence|]. split; [congruence|done].
Qed.

Lemma fine_kept c fuel ops : proper c -> forall s s', DInv c s -> da_lock (ds_da s) = false -> all_fine c s ->
  (N.of_nat (length (ds_calls s) + nins ops) < 2 ^ 64 - 1)%N ->
  drun c fuel s (seq_evs (length (ds_calls s)) ops) = Val s' -> all_fine c s'.
Proof.
  intros Ht s s' H Hl Hf Hn E.
  apply (seq_run c fuel Ht (fun _ => True) (all_fine c)) with (ops := ops) (s := s); try done.
  - clear -Ht. intros s v obj s' H Hl Hf _ Hn E.
    destruct (insert_cases c fuel s v obj s' Ht H Hl Hn E) as (mi & mi1 & _ & _ & _ & _ & [(Hd & mi' & _ & _ & _ & ->)|[Hd ->]]);
      intros i cl [Hi|[Hi Hc]]%lookup_app_Some; try (by eapply Hf); apply list_lookup_singleton_Some in Hc as [_ <-]; cbn [ic_pc ic_vec].
    + eexists _, _. by left.
    + eexists _, _. by right.
Qed.

Theorem C71_one_at_a_time :
  forall c fuel ops s, proper c -> (N.of_nat (nins ops) < 2 ^ 64 - 1)%N ->
    drun c fuel (dinit c) (seq_evs 0 ops) = Val s ->
    forall i cl, ds_calls s !! i = Some cl ->
      (N.of_nat (length (ic_vec cl)) = dc_dim c -> exists id p, ic_pc cl = IRet id p (Val tt)) /\
      (N.of_nat (length (ic_vec cl)) <> dc_dim c -> exists id p, ic_pc cl = IRet id p (Err EDimensions)).
Proof.
  intros c fuel ops s Ht Hn E i cl Hi.
  destruct (fine_kept c fuel ops Ht (dinit c) s (DInv_init c)) with (i := i) (cl := cl) as (id & p & [[E1 E2]|[E1 E2]]); try done.
  - split; [by exists id, p|done].
  - split; [done|by exists id, p].
Qed.
Print Assumptions C71_one_at_a_time.
(** A right and a wrong vector one after the other, and the schedule above up to
    its last event, which all the calls can finish from. *)
Example C71_case :
  match drun (cfg1 2) 20 (dinit (cfg1 2)) (seq_evs 0 [SIns (f1 0) 1; SIns [] 2; SIns (f1 0) 3]) with
  | Val s => ic_pc <$> ds_calls s = [IRet 1 0 (Val tt); IRet 2 0 (Err EDimensions); IRet 3 0 (Val tt)]
  | _ => False
  end /\ Forall no_snap ro_evs.
Proof. split; [by vm_compute|]. repeat constructor. Qed.

(** ** C72 Memory indexes respect their limit *)
Definition mi_len (mi : mindex) : N := N.of_nat (size (mi_graph mi)).

(** False for the code under concurrency: both inserts see an empty index;
    afterwards the size is past the limit, and the comparison is an equality. *)
Definition race_evs : list dev :=
  [EvCall (f1 0) 7; EvCall (f1 1065353216) 8; EvStep 0; EvStep 1] ++ replicate 3 (EvStep 0) ++ replicate 3 (EvStep 1).
Theorem C72_limit_concurrent_refuted :
  exists evs s p mi, reached (cfg1 1) evs s /\ da_mem (ds_da s) !! p = Some mi /\ (dc_limit (cfg1 1) < mi_len mi)%N.
Proof.
  destruct (reached_witness (cfg1 1) 20 race_evs (fun s => exists mi, da_mem (ds_da s) !! 0 = Some mi /\ mi_len mi = 2%N))
    as (s & Hr & mi & Em & Hl).
  { by vm_compute. }
  { vm_compute. eexists. split; reflexivity. }
  exists race_evs, s, 0, mi. split; [exact Hr|]. split; [exact Em|]. rewrite Hl. done.
Qed.
Print Assumptions C72_limit_concurrent_refuted.

(** A limit of 0, the default, is passed even by one call at a time. *)
Theorem C72_limit_zero_refuted :
  exists ops s p mi, reached (cfg1 0) (seq_evs 0 ops) s /\ da_mem (ds_da s) !! p = Some mi /\ (dc_limit (cfg1 0) < mi_len mi)%N.
Proof.
  destruct (reached_witness (cfg1 0) 20 (seq_evs 0 [SIns (f1 0) 7; SIns (f1 1065353216) 8])
    (fun s => exists mi, da_mem (ds_da s) !! 1 = Some mi /\ mi_len mi = 2%N)) as (s & Hr & mi & Em & Hl).
  { by vm_compute. }
  { vm_compute. eexists. split; reflexivity. }
  exists [SIns (f1 0) 7; SIns (f1 1065353216) 8], s, 1, mi. split; [exact Hr|]. split; [exact Em|]. rewrite Hl. done.
Qed.
Print Assumptions C72_limit_zero_refuted.

Lemma skel_size g : size (skel g) = size g.
Proof. unfold skel. apply map_size_fmap. Qed.
Lemma len_insert g g' id x : skel g' = <[id := x]> (skel g) -> g !! id = None -> size g' = S (size g).
Proof.
  intros E Hn. rewrite <- (skel_size g'), <- (skel_size g), E. apply map_size_insert_None. unfold skel. by rewrite lookup_fmap, Hn.
Qed.
Lemma cur_fresh c s p mi : DInv c s -> da_mem (ds_da s) !! p = Some mi -> mi_graph mi !! da_cur (ds_da s) = None.
Proof.
  intros H Em. destruct (mi_graph mi !! da_cur (ds_da s)) as [v|] eqn:Ev; [|done]. apply skel_lookup in Ev.
  apply (di_stored c s H p mi _ _ Em) in Ev as (i & cl & Hi & Pi & _).
  pose proof (di_id c s H i cl _ Hi ltac:(by rewrite Pi)). lia.
Qed.

(** What holds: one call at a time, with a limit of at least 1, every closed
    index holds exactly as many vectors as the limit says and the open one no
    more. *)
Theorem C72_limit_partial :
  forall c fuel ops s, proper c -> (1 <= dc_limit c < 2 ^ 32)%N -> (N.of_nat (nins ops) < 2 ^ 64 - 1)%N ->
    drun c fuel (dinit c) (seq_evs 0 ops) = Val s ->
    forall p mi, da_mem (ds_da s) !! p = Some mi ->
      (mi_len mi <= dc_limit c)%N /\ (p <> da_rw (ds_da s) -> mi_len mi = dc_limit c).
Proof.
  intros c fuel ops s Ht Hlim Hn E.
  apply (seq_run c fuel Ht (fun _ => True) (fun s => forall p mi, da_mem (ds_da s) !! p = Some mi ->
      (mi_len mi <= dc_limit c)%N /\ (p <> da_rw (ds_da s) -> mi_len mi = dc_limit c))) with (ops := ops) (s := dinit c); try done.
  1: { intros s1 ok da' Hs Es. by destruct (snap_same _ _ _ Es) as (n & fs & ->). }
  2: apply DInv_init.
  2:{ intros p mi H. cbn in H. apply list_lookup_singleton_Some in H as [-> <-]. unfold mi_len. cbn [new_mindex mi_graph]. rewrite map_size_empty.
      split; [lia|]. cbn. lia. }
  clear -Ht Hlim. intros s v obj s' H Hl HQ _ Hn E.
  destruct (insert_cases c fuel s v obj s' Ht H Hl Hn E) as (mi & mi1 & Emi & Hrest). cbv zeta in Hrest.
  destruct Hrest as (E1 & _ & Hcase & Hout). pose proof (di_rw c s H) as Hrw. destruct (HQ _ _ Emi) as [Hle _].
  assert (Hcnt : mi_count mi = mi_len mi) by (unfold mi_count, mi_len in *; apply u32_small; lia).
  set (da1 := checked c (ds_da s) mi) in *.
  (* after the check *)
  assert (Hda1 : (forall p m, da_mem da1 !! p = Some m -> (mi_len m <= dc_limit c)%N /\ (p <> da_rw da1 -> mi_len m = dc_limit c)) /\
                 (mi_len mi1 < dc_limit c)%N /\ mi_graph mi1 !! da_cur (ds_da s) = None).
  { destruct Hcase as [(-> & -> & Hc)|(-> & -> & Hc)].
    - split; [exact HQ|]. split; [lia|]. by eapply cur_fresh.
    - split; [|split; [unfold mi_len; cbn [new_mindex mi_graph]; rewrite map_size_empty; lia|by apply lookup_empty]].
      cbn [rotated da_mem da_rw]. intros p m [Hm|[Hp Hm]]%lookup_app_Some.
      + apply list_lookup_insert_Some in Hm as [(<- & <- & _)|[Hne Hm]].
        * change (mi_len (mi_close mi)) with (mi_len mi). split; [lia|]. intros _. lia.
        * destruct (HQ _ _ Hm) as [G1 G2]. split; [done|]. intros _. by apply G2.
      + rewrite insert_length in Hp. apply list_lookup_singleton_Some in Hm as [Hz <-]. rewrite insert_length in Hz. unfold mi_len. cbn [new_mindex mi_graph]. rewrite map_size_empty.
        split; [lia|]. intros Hne. lia. }
  destruct Hda1 as (HQ1 & Hlt & Hfr).
  destruct Hout as [(_ & mi' & Hsk & _ & _ & ->)|[_ ->]]; cbn [ds_da with_cur with_mem da_mem da_rw]; [|exact HQ1].
  intros p m [(<- & <- & _)|[Hne Hm]]%list_lookup_insert_Some; [|by apply HQ1].
  split; [|done]. unfold mi_len in *. rewrite (len_insert _ _ _ _ Hsk Hfr). lia.
Qed.
Print Assumptions C72_limit_partial.

(** Five vectors, limit 2: two full indexes and one with the rest. *)
Definition five : list sop :=
  [SIns (f1 0) 1; SIns (f1 1065353216) 2; SIns (f1 1073741824) 3; SDel 9; SIns (f1 1077936128) 4; SIns (f1 1082130432) 5].
Example C72_case :
  match drun (cfg1 2) 20 (dinit (cfg1 2)) (seq_evs 0 five) with
  | Val s => mi_len <$> da_mem (ds_da s) = [2; 2; 1]%N /\ da_rw (ds_da s) = 2 /\ da_ro (ds_da s) = [0; 1]
  | _ => False
  end.
Proof. by vm_compute. Qed.

(** ** C76 The ids of a memory index are consecutive *)
(** What a snapshot relies on (C54): the ids are the [size] ids from firstId on. *)
Definition consecutive (mi : mindex) : Prop :=
  forall id, (exists v, mi_graph mi !! id = Some v) <-> (mi_first mi <= id < mi_first mi + mi_len mi)%N.

(** False for the code: an insert with a wrong dimension uses up an id. *)
Theorem C76_consecutive_refuted :
  exists ops s p mi, reached (cfg1 5) (seq_evs 0 ops) s /\ da_mem (ds_da s) !! p = Some mi /\ ~ consecutive mi.
Proof.
  set (ops := [SIns (f1 0) 7; SIns [] 8; SIns (f1 1065353216) 9]).
  destruct (reached_witness (cfg1 5) 20 (seq_evs 0 ops)
    (fun s => exists mi, da_mem (ds_da s) !! 0 = Some mi /\ mi_len mi = 2%N /\ mi_first mi = 1%N /\ mi_graph mi !! 2%N = None))
    as (s & Hr & mi & Em & Hl & Hf & Hg).
  { by vm_compute. }
  { vm_compute. eexists. split; [reflexivity|]. split; [reflexivity|]. split; reflexivity. }
  exists ops, s, 0, mi. split; [exact Hr|]. split; [exact Em|]. intros Hc. destruct (proj2 (Hc 2%N)) as [v Hv]; [lia|]. congruence.
Qed.
Print Assumptions C76_consecutive_refuted.

(** Nor does it hold for vectors of the right dimension under concurrency: the
    second insert takes id 2, the third closes the index and starts the next with
    firstId 3, then the second stores into that one. *)
Definition gap_evs : list dev :=
  one_insert 0 (f1 0) 7 ++ [EvCall (f1 1065353216) 8; EvStep 1; EvStep 1] ++
  one_insert 2 (f1 1073741824) 9 ++ [EvCall (f1 1077936128) 10] ++ replicate 6 (EvStep 3) ++ replicate 2 (EvStep 1).
Theorem C76_consecutive_concurrent_refuted :
  exists evs s p mi, reached (cfg1 2) evs s /\
    (forall i cl, ds_calls s !! i = Some cl -> N.of_nat (length (ic_vec cl)) = 1%N /\ exists id p, ic_pc cl = IRet id p (Val tt)) /\
    da_mem (ds_da s) !! p = Some mi /\ ~ consecutive mi.
Proof.
  destruct (reached_witness (cfg1 2) 20 gap_evs
    (fun s => (exists mi, da_mem (ds_da s) !! 1 = Some mi /\ mi_first mi = 4%N /\ is_Some (mi_graph mi !! 2%N)) /\
      Forall (fun cl => length (ic_vec cl) = 1 /\ match ic_pc cl with IRet _ _ (Val tt) => True | _ => False end) (ds_calls s)))
    as (s & Hr & (mi & Em & Hf & [v Hv]) & Hall).
  { by vm_compute. }
  { vm_compute. split.
    - eexists. split; [reflexivity|]. split; [reflexivity|]. by eexists.
    - repeat constructor. }
  exists gap_evs, s, 1, mi. split; [exact Hr|]. split.
  { intros i cl Hi. rewrite Forall_lookup in Hall. destruct (Hall i cl Hi) as [H1 H2]. split; [by rewrite H1|].
    destruct (ic_pc cl) as [| | | | | |id p [[]|?|?]]; try (exfalso; exact H2). by exists id, p. }
  split; [exact Em|]. intros Hc. destruct (proj1 (Hc 2%N)) as [Hx _]; [by exists v|]. lia.
Qed.
Print Assumptions C76_consecutive_concurrent_refuted.

(** What holds: with one call at a time and no vector of a wrong dimension. *)
Theorem C76_consecutive_partial :
  forall c fuel ops s, proper c -> (N.of_nat (nins ops) < 2 ^ 64 - 1)%N ->
    (forall v obj, SIns v obj ∈ ops -> N.of_nat (length v) = dc_dim c) ->
    drun c fuel (dinit c) (seq_evs 0 ops) = Val s ->
    forall p mi, da_mem (ds_da s) !! p = Some mi -> consecutive mi.
Proof.
  intros c fuel ops s Ht Hn Hok E.
  assert (forall p mi, da_mem (ds_da s) !! p = Some mi ->
      consecutive mi /\ (p = da_rw (ds_da s) -> da_cur (ds_da s) = (mi_first mi + mi_len mi)%N)) as HH; [|intros p mi Em; by apply (HH p mi)].
  apply (seq_run c fuel Ht (fun v => N.of_nat (length v) = dc_dim c) (fun s => forall p mi, da_mem (ds_da s) !! p = Some mi ->
      consecutive mi /\ (p = da_rw (ds_da s) -> da_cur (ds_da s) = (mi_first mi + mi_len mi)%N))) with (ops := ops) (s := dinit c); try done.
  1: { intros s1 ok da' Hs Es. by destruct (snap_same _ _ _ Es) as (n & fs & ->). }
  2: apply DInv_init.
  2:{ intros p mi H. cbn in H. apply list_lookup_singleton_Some in H as [-> <-]. unfold consecutive, mi_len. cbn [new_mindex mi_graph mi_first]. rewrite map_size_empty.
      split; [|done]. intros id. rewrite lookup_empty. split; [by intros [? ?]|lia]. }
  clear -Ht. intros s v obj s' H Hl HQ Hv Hn E.
  destruct (insert_cases c fuel s v obj s' Ht H Hl Hn E) as (mi & mi1 & Emi & Hrest). cbv zeta in Hrest.
  destruct Hrest as (E1 & Ecur & Hcase & Hout). pose proof (di_rw c s H) as Hrw.
  set (da1 := checked c (ds_da s) mi) in *.
  destruct Hout as [(_ & mi' & Hsk & Hf & _ & ->)|[Hbad _]]; [|done]. cbn [ds_da with_cur with_mem da_mem da_rw da_cur].
  assert (Hda1 : (forall p m, da_mem da1 !! p = Some m -> p <> da_rw da1 -> consecutive m) /\
                 consecutive mi1 /\ da_cur (ds_da s) = (mi_first mi1 + mi_len mi1)%N /\ mi_graph mi1 !! da_cur (ds_da s) = None).
  { destruct Hcase as [(-> & -> & Hc)|(-> & -> & Hc)].
    - split; [intros p m Hm _; by apply (HQ p m)|]. destruct (HQ _ _ Emi) as [G1 G2]. split; [done|]. split; [by apply G2|]. by eapply cur_fresh.
    - unfold mi_len. cbn [new_mindex mi_graph mi_first]. rewrite map_size_empty. split_and!; [| |lia|by apply lookup_empty].
      + cbn [rotated da_mem da_rw]. intros p m [Hm|[Hp Hm]]%lookup_app_Some Hne.
        * apply list_lookup_insert_Some in Hm as [(<- & <- & _)|[Hne' Hm]]; [|by apply (HQ p m)]. by apply (HQ _ _ Emi).
        * apply list_lookup_singleton_Some in Hm as [Hz _]. rewrite insert_length in *. lia.
      + intros id. unfold mi_len. cbn [new_mindex mi_graph mi_first]. rewrite map_size_empty, lookup_empty. split; [by intros [? ?]|lia]. }
  destruct Hda1 as (HQ1 & Hcon & Hend & Hfr).
  assert (Hlen : mi_len mi' = (mi_len mi1 + 1)%N) by (unfold mi_len; rewrite (len_insert _ _ _ _ Hsk Hfr); lia).
  intros p m [(<- & <- & _)|[Hne Hm]]%list_lookup_insert_Some.
  - split; [|intros _; rewrite Hf, Hlen, Hend; lia]. intros id. rewrite Hf, Hlen.
    assert ((exists w, mi_graph mi' !! id = Some w) <-> id = da_cur (ds_da s) \/ exists w, mi_graph mi1 !! id = Some w) as ->.
    { assert (id ∈ dom (skel (mi_graph mi')) <-> id = da_cur (ds_da s) \/ id ∈ dom (skel (mi_graph mi1))) as Hd by (rewrite Hsk, dom_insert_L; set_solver).
      rewrite !skel_dom in Hd. rewrite !elem_of_dom in Hd. exact Hd. }
    rewrite (Hcon id), Hend. lia.
  - split; [apply (HQ1 p m Hm); by intros ->|]. intros ->. done.
Qed.
Print Assumptions C76_consecutive_partial.
Example C76_case :
  match drun (cfg1 2) 20 (dinit (cfg1 2)) (seq_evs 0 five) with
  | Val s => (fun mi => (mi_first mi, elements (dom (mi_graph mi)))) <$> da_mem (ds_da s) = [(1, [1; 2]); (3, [3; 4]); (5, [5])]%N
  | _ => False
  end /\ forall v obj, SIns v obj ∈ five -> N.of_nat (length v) = dc_dim (cfg1 2).
Proof.
  split; [by vm_compute|]. intros v obj Hv. unfold five in Hv. repeat (apply elem_of_cons in Hv as [Hv|Hv]; [first [discriminate|by injection Hv as -> ->]|]).
  by inversion Hv.
Qed.

(** Past the limit it grows without bound: after the race above no insert ever
    starts a new index again (until the size, a uint32, wraps). *)
Lemma stuck_insert c fuel s v obj s' n : proper c -> DInv c s -> da_lock (ds_da s) = false ->
  (N.of_nat (S (length (ds_calls s))) < 2 ^ 64 - 1)%N -> N.of_nat (length v) = dc_dim c ->
  (forall mi, da_mem (ds_da s) !! da_rw (ds_da s) = Some mi -> mi_len mi = n) -> (dc_limit c < n < 2 ^ 32)%N -> da_rw (ds_da s) = 0 ->
  drun c fuel s (one_insert (length (ds_calls s)) v obj) = Val s' ->
  da_rw (ds_da s') = 0 /\ (forall mi, da_mem (ds_da s') !! da_rw (ds_da s') = Some mi -> mi_len mi = (n + 1)%N).
Proof.
  intros Ht H Hl Hn Hv Hlen Hlim Hrw E.
  destruct (insert_cases c fuel s v obj s' Ht H Hl Hn E) as (mi & mi1 & Emi & Hrest). cbv zeta in Hrest.
  destruct Hrest as (E1 & Ecur & Hcase & Hout). specialize (Hlen _ Emi).
  destruct Hcase as [(-> & Ed & Hc)|(_ & _ & Hc)].
  2:{ exfalso. unfold mi_count in Hc. unfold mi_len in *. rewrite u32_small in Hc by lia. lia. }
  rewrite Ed in *. destruct Hout as [(_ & mi' & Hsk & Hf & _ & ->)|[Hbad _]]; [|done]. cbn [ds_da with_cur with_mem da_mem da_rw].
  split; [done|]. intros m Hm. rewrite list_lookup_insert in Hm by (by eapply lookup_lt_Some). injection Hm as <-.
  unfold mi_len in *. rewrite (len_insert _ _ _ _ Hsk); [lia|]. by eapply cur_fresh.
Qed.

Theorem C72_no_limit_after_race_refuted :
  forall n, (N.of_nat n + 2 < 2 ^ 32)%N ->
    exists evs s mi, reached (cfg1 1) (race_evs ++ evs) s /\ da_mem (ds_da s) = [mi] /\ (mi_len mi = N.of_nat n + 2)%N.
Proof.
  intros n Hn. set (c := cfg1 1).
  destruct (reached_witness c 20 race_evs (fun s => da_lock (ds_da s) = false /\ length (ds_calls s) = 2 /\ da_rw (ds_da s) = 0 /\
    mi_len <$> da_mem (ds_da s) !! 0 = Some 2%N)) as (s0 & Hr & Hl0 & Hc0 & Hrw0 & Hlen0).
  { by vm_compute. }
  { vm_compute. split_and!; reflexivity. }
  assert (H0 : DInv c s0) by (eapply reached_inv; [apply cfg1_proper|exact Hr]).
  destruct Hr as [_ [fuel0 E0]].
  assert (HH : forall m, m <= n -> exists F s, (forall fuel, F <= fuel -> drun c fuel s0 (seq_evs 2 (replicate m (SIns (f1 0) 1))) = Val s) /\
    DInv c s /\ da_lock (ds_da s) = false /\ length (ds_calls s) = 2 + m /\ da_rw (ds_da s) = 0 /\
    (forall mi, da_mem (ds_da s) !! da_rw (ds_da s) = Some mi -> mi_len mi = (N.of_nat m + 2)%N)).
  { induction m as [|m IH]; intros Hm.
    - exists 0, s0. split; [done|]. split; [done|]. split; [done|]. split; [done|]. split; [done|].
      intros mi Em. rewrite Hrw0 in Em. rewrite Em in Hlen0. by injection Hlen0 as ->.
    - destruct IH as (F & s & E & H & Hl & Hc & Hrw & Hlen); [lia|].
      destruct (drun_total c (one_insert (length (ds_calls s)) (f1 0) 1) (cfg1_proper 1)) with (s := s) as (F1 & s1 & E1 & H1).
      { repeat constructor. }
      { done. }
      { cbn [one_insert ncalls replicate]. lia. }
      destruct (one_insert_quiet c F1 s (f1 0) 1 s1 (cfg1_proper 1) H Hl) as (_ & Hl1 & Hc1); [lia|by apply E1|].
      destruct (stuck_insert c F1 s (f1 0) 1 s1 (N.of_nat m + 2) (cfg1_proper 1) H Hl ltac:(lia) eq_refl Hlen) as (Hrw1 & Hlen1);
        [change (dc_limit c) with 1%N; lia|exact Hrw|apply E1; lia|].
      exists (Nat.max F F1), s1. split_and!; [|done|done|lia|done|intros mi Em; rewrite (Hlen1 mi Em); lia].
      intros fuel Hf. replace (replicate (S m) (SIns (f1 0) 1)) with (replicate m (SIns (f1 0) 1) ++ [SIns (f1 0) 1]) by (by rewrite <- replicate_cons_app).
      assert (Hs : forall k j, seq_evs j (replicate k (SIns (f1 0) 1) ++ [SIns (f1 0) 1]) = seq_evs j (replicate k (SIns (f1 0) 1)) ++ one_insert (j + k) (f1 0) 1).
      { clear. induction k as [|k IH]; intros j; cbn [replicate app seq_evs]; [by rewrite Nat.add_0_r, app_nil_r|].
        rewrite IH, <- app_assoc. by rewrite Nat.add_succ_r. }
      rewrite Hs, drun_app, E by lia. cbn [mbind out_bind]. rewrite <- Hc. apply E1. lia. }
  destruct (HH n ltac:(done)) as (F & s & E & H & Hl & Hc & Hrw & Hlen).
  pose proof (di_rw c s H) as Hmem. rewrite Hrw in Hmem. destruct (da_mem (ds_da s)) as [|mi [|]] eqn:Em; [done| |done].
  exists (seq_evs 2 (replicate n (SIns (f1 0) 1))), s, mi. split; [|split; [done|apply Hlen; by rewrite Hrw]].
  split.
  { rewrite ncalls_app, ncalls_seq. assert (nins (replicate n (SIns (f1 0) 1)) = n) as ->; [|change (ncalls race_evs) with 2; lia].
    clear. induction n as [|n IH]; cbn; [done|by rewrite IH]. }
  exists (Nat.max fuel0 F). rewrite drun_app.
  assert (drun c (Nat.max fuel0 F) (dinit c) race_evs = Val s0) as ->; [|cbn [mbind out_bind]; apply E; lia].
  apply (drun_mono c fuel0); [lia|exact E0].
Qed.
Print Assumptions C72_no_limit_after_race_refuted.
