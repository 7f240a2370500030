(** Properties of the DiskANN memory index and its snapshots: C53-C57. *)
From Verif Require Import GoBase FloatModel HeapModel MMHeapModel DiskAnnModel.
From Verif Require Import ProofBase FloatProofs HeapProofs MMHeapProofs CodecProofs CodecSpec PropFloat DiskAnnProofs DiskAnnCodec.
From Coq Require Import SpecFloat Sorted.
Open Scope nat_scope.

(** ** C53 Snapshot metadata round-trips *)
Theorem C53_metadata_round_trip :
  forall mi, (mi_dim mi < 2 ^ 32)%N -> (mi_deg mi < 2 ^ 32)%N -> (mi_first mi < 2 ^ 64)%N -> (mi_s mi < 2 ^ 64)%N ->
    (N.of_nat (size (mi_graph mi)) < 2 ^ 32)%N ->
    exists page, ser_meta (zero_bytes page_size) mi = Val page /\ length page = page_size /\
      de_meta page = Val (mi_dim mi, mi_deg mi, mi_first mi, N.of_nat (size (mi_graph mi)), mi_s mi).
Proof.
  intros mi H1 H2 H3 H4 H5. destruct (meta_round mi page_size) as (b & E & Hl & D); try done; [unfold page_size; lia|].
  exists b. split; [done|]. split; [done|]. rewrite D. unfold mi_count. by rewrite u32_small.
Qed.
Print Assumptions C53_metadata_round_trip.

Example C53_case :
  let mi := MIndex {[7%N := DVertex 7 0 [] []]} (2 ^ 64 - 1)%N (2 ^ 32 - 1)%N 5 7 true false 0 in
  (p ← ser_meta (zero_bytes page_size) mi; de_meta p) = Val (2 ^ 32 - 1, 5, 7, 1, 2 ^ 64 - 1)%N.
Proof. by vm_compute. Qed.

(** ** Insertion histories *)
(** One call of insert: the id, the vector, the list size, the threshold and
    the objects deleted at that time. *)
Record mins := MIns { in_id : N; in_vec : fvec; in_list : nat; in_thr : fl; in_del : gset N }.
Fixpoint mrun (dist : fvec -> fvec -> out fl) (fuel : nat) (mi : mindex) (ops : list mins) : out mindex :=
  match ops with
  | [] => Val mi
  | o :: ops' =>
      mi' ← minsert dist (in_del o) fuel mi (in_vec o) (in_list o) (in_thr o) (in_id o);
      mrun dist fuel mi' ops'
  end.
Definition vec_ok (dim : N) (v : fvec) : Prop := N.of_nat (length v) = dim /\ Forall f32_finite v.

Lemma mrun_mono dist fuel fuel' mi ops r : fuel <= fuel' -> mrun dist fuel mi ops = Val r -> mrun dist fuel' mi ops = Val r.
Proof.
  intros Hle. revert mi. induction ops as [|o ops IH]; intros mi; cbn [mrun]; [done|].
  destruct (minsert dist (in_del o) fuel mi (in_vec o) (in_list o) (in_thr o) (in_id o)) as [mi'|?|?] eqn:E; [|done..].
  rewrite (minsert_mono _ _ fuel fuel' _ _ _ _ _ _ Hle E). cbn [mbind out_bind]. apply IH.
Qed.

(** the vertices an insertion history leaves: the last vector given for an id *)
Definition mstored (ops : list mins) (g0 : gmap N (N * N * fvec)) : gmap N (N * N * fvec) :=
  foldl (fun g o => <[in_id o := (in_id o, 0%N, in_vec o)]> g) g0 ops.

Lemma mstored_inv (P : fvec -> Prop) ops g0 :
  (forall i x, g0 !! i = Some x -> P x.2) -> Forall (fun o => P (in_vec o)) ops ->
  forall i x, mstored ops g0 !! i = Some x -> P x.2.
Proof.
  revert g0. induction ops as [|o ops IH]; intros g0 H0 Hops; cbn [mstored foldl]; [done|].
  inversion_clear Hops as [|?? Ho Hops']. apply IH; [|done]. intros i x. rewrite lookup_insert_Some.
  intros [[_ <-]|[_ Hx]]; [done|by eapply H0].
Qed.

Lemma fmul_zero_r x : finite x -> exists s, fmul x fzero = S754_zero s.
Proof. destruct x; cbn; try done; intros _; by eexists. Qed.
Lemma fleb_zero_nonneg s c : nonneg c -> fleb (S754_zero s) c = true.
Proof. destruct c as [[]|[]| |[]]; cbn; try done; by destruct s. Qed.

Lemma euclid_sane thr g : finite thr -> (forall i v, g !! i = Some v -> Forall f32_finite (dv_vec v)) ->
  sane euclidean thr g.
Proof.
  intros Ht Hf i j v w d Hv Hw Hd. apply Hf in Hv as Hfv, Hw as Hfw.
  apply vfinite_val in Hfv, Hfw. split; [by eapply euclidean_finite in Hd|].
  intros -> c Hc. rewrite Hv in Hw. injection Hw as <-. rewrite (euclidean_self _ Hfv) in Hd. apply Val_inj in Hd as <-.
  destruct (fmul_zero_r thr Ht) as [s ->]. by apply fleb_zero_nonneg.
Qed.
Lemma euclid_dist_total dim : dist_total euclidean dim.
Proof. intros x y Hx Hy. apply euclidean_total. lia. Qed.

Lemma mrun_ok dist dim ops : dist_total dist dim -> Forall (fun o => N.of_nat (length (in_vec o)) = dim) ops ->
  forall mi, wfm mi -> mi_dim mi = dim -> mi_ro mi = false ->
  exists F mi', (forall fuel, F <= fuel -> mrun dist fuel mi ops = Val mi') /\ wfm mi' /\ mi_dim mi' = dim /\
    mi_deg mi' = mi_deg mi /\ mi_first mi' = mi_first mi /\ skel (mi_graph mi') = mstored ops (skel (mi_graph mi)) /\
    (ops <> [] -> mi_once mi' = true).
Proof.
  intros Ht. induction ops as [|o ops IH]; intros Hops mi Hw Hdim Hro.
  { exists 0, mi. split_and!; try done. }
  inversion_clear Hops as [|?? Ho Hops'].
  set (F1 := 1 + work ∅ (<[in_id o := DVertex (in_id o) 0 [] (in_vec o)]> (mi_graph mi))).
  destruct (minsert_ok dist (in_del o) F1 mi (in_vec o) (in_list o) (in_thr o) (in_id o))
    as (mi1 & E1 & Hw1 & Hsk1 & Hd1 & Hdeg1 & Hf1 & Hro1 & Hon1 & _); [by rewrite Hdim|done|done|congruence|done|].
  destruct (IH Hops' mi1) as (F2 & mi2 & E2 & Hw2 & Hd2 & Hdeg2 & Hf2 & Hsk2 & Hon2); [done|congruence|done|].
  exists (Nat.max F1 F2), mi2. split_and!; try done; try congruence.
  - intros fuel Hf. cbn [mrun]. rewrite (minsert_mono _ _ F1 fuel _ _ _ _ _ _ ltac:(lia) E1). cbn [mbind out_bind].
    apply E2. lia.
  - rewrite Hsk2, Hsk1. done.
  - intros _. destruct ops as [|o' ops']; [|by apply Hon2].
    specialize (E2 F2 ltac:(lia)). cbn [mrun] in E2. apply Val_inj in E2 as <-. done.
Qed.
Lemma wfm_new first deg dim : wfm (new_mindex first deg dim).
Proof. split_and!; cbn; try done; intros i v Hv; by rewrite lookup_empty in Hv. Qed.

(** ** C56 Memory search is sound *)
(** Specification: what a search may return. *)
Definition linked (mi : mindex) : Prop :=
  (exists v, mi_graph mi !! mi_s mi = Some v) /\
  (forall i v n, mi_graph mi !! i = Some v -> n ∈ dv_nbrs v -> exists w, mi_graph mi !! n = Some w).
Definition ascending (res : list elem) : Prop := StronglySorted (fun a b => SFltb (e_dist b) (e_dist a) = false) res.
Definition truthful (dist : fvec -> fvec -> out fl) (deleted : gset N) (mi : mindex) (q : fvec) (e : elem) : Prop :=
  exists v, mi_graph mi !! e_id e = Some v /\ dv_obj v ∉ deleted /\ dist (dv_vec v) q = Val (e_dist e).
Definition sound_result dist deleted mi q (k : nat) (res : list elem) : Prop :=
  length res <= k /\ NoDup (e_id <$> res) /\ Forall (truthful dist deleted mi q) res /\
  ((forall i v, mi_graph mi !! i = Some v -> dist (dv_vec v) q <> Val S754_nan) -> ascending res).

Lemma linked_closed mi : linked mi -> closed (mi_graph mi) /\ mi_s mi ∈ dom (mi_graph mi).
Proof.
  intros [[v Hv] H]. split; [|apply elem_of_dom; by eexists].
  intros i w Hw. apply Forall_forall. intros n Hn. apply elem_of_dom. destruct (H i w n Hw Hn) as [u Hu]. by eexists.
Qed.
Lemma wfm_linked mi : wfm mi -> mi_once mi = true -> linked mi.
Proof.
  intros (Hu & Hc & Hs) Ho. rewrite Ho in Hs. split; [by apply elem_of_dom|].
  intros i v n Hv Hn. apply Hc in Hv. rewrite Forall_forall in Hv. apply elem_of_dom. by apply Hv.
Qed.

Lemma NoDup_fmap_of {A B C} (f : A -> B) (g : B -> C) (l : list A) : NoDup ((fun x => g (f x)) <$> l) -> NoDup (f <$> l).
Proof.
  induction l as [|x l IH]; cbn [fmap list_fmap]; [constructor|]. intros H. apply NoDup_cons in H as [H1 H2]. constructor; [|by apply IH].
  intros (y & E & Hy)%elem_of_list_fmap. apply H1. apply elem_of_list_fmap. exists y. by rewrite E.
Qed.

(** the k best of the visited vertices *)
Lemma msearch_split dist deleted fuel mi q k L cs : mvisit dist deleted fuel mi q L = Val cs ->
  exists res rest, msearch dist deleted fuel mi q k L = Val res /\ cs ≡ₚ res ++ rest /\ length res = Nat.min k (length cs) /\
    (Forall enum cs -> ascending res /\ forall x y, x ∈ res -> y ∈ rest -> SFltb (e_dist y) (e_dist x) = false).
Proof.
  intros E. unfold msearch. rewrite E. cbn [mbind out_bind].
  destruct (pop_k_perm k (heap_init min_less cs)) as (res & rest & Er & Hp & Hl).
  exists res, rest. split; [done|]. rewrite heap_init_perm in Hp. split; [done|].
  split; [by rewrite Hl, heap_init_perm|]. intros Hn.
  destruct (pop_k_sorted k (heap_init min_less cs) res) as [Hs Hr]; [by rewrite heap_init_perm| |done|].
  { by apply (heap_init_ok min_less enum min_less_irr min_less_asym min_less_ntrans). }
  split; [exact Hs|]. intros x y Hx Hy. apply (Hr rest); [by rewrite heap_init_perm|done|done].
Qed.

Lemma collected_enum dist deleted g q s vis cs : collected dist deleted g q s vis cs ->
  (forall i v, g !! i = Some v -> dist (dv_vec v) q <> Val S754_nan) -> Forall enum cs.
Proof.
  intros [_ H] Hn. eapply Forall_impl; [exact H|]. intros e (_ & (_ & v & Hv & Hd) & _).
  specialize (Hn _ _ Hv). rewrite Hd in Hn. unfold enum, num. by destruct (e_dist e).
Qed.

Theorem C56_search_sound :
  forall dist deleted mi q k L,
    linked mi -> (forall i v, mi_graph mi !! i = Some v -> exists d, dist (dv_vec v) q = Val d) ->
    exists F res, (forall fuel, F <= fuel -> msearch dist deleted fuel mi q k L = Val res) /\
      sound_result dist deleted mi q k res.
Proof.
  intros dist deleted mi q k L [Hc Hs]%linked_closed Hm. set (F := 1 + work ∅ (mi_graph mi)).
  destruct (mvisit_ok dist deleted F mi q L) as (cs & vis & E & Hcol); try done.
  destruct (msearch_split dist deleted F mi q k L cs E) as (res & rest & Er & Hp & Hl & Hord).
  exists F, res. split.
  { intros fuel Hf. apply (mvisit_mono _ _ _ fuel) in E; [|done]. unfold msearch in *. rewrite E.
    destruct (mvisit dist deleted F mi q L) eqn:E2 in Er; [|done..].
    destruct (mvisit_ok dist deleted F mi q L) as (cs' & vis' & E' & _); try done.
    apply (mvisit_mono _ _ _ fuel) in E2; [|done]. rewrite E2 in E. apply Val_inj in E as <-. done. }
  split_and!.
  - lia.
  - destruct Hcol as [Hnd _]. apply (NoDup_fmap_of e_id u32) in Hnd. rewrite Hp, fmap_app in Hnd.
    by apply NoDup_app in Hnd as [? _].
  - destruct Hcol as [_ Hf]. rewrite Hp in Hf. apply Forall_app in Hf as [Hf _].
    eapply Forall_impl; [exact Hf|]. intros e (_ & (_ & v & Hv & Hd) & Hnd). exists v. split_and!; auto.
  - intros Hn. apply Hord. by eapply collected_enum.
Qed.
Print Assumptions C56_search_sound.

(** The hypotheses hold after every sequence of inserts, with any list sizes,
    thresholds and deletions in between: inserts never panic, and the index
    holds exactly the inserted vectors. *)
Theorem C56_search_sound_after_inserts :
  forall ops first deg dim deleted q k L,
    ops <> [] -> Forall (fun o => N.of_nat (length (in_vec o)) = dim) ops -> N.of_nat (length q) = dim ->
    exists F mi res,
      (forall fuel, F <= fuel -> mrun euclidean fuel (new_mindex first deg dim) ops = Val mi /\
                                 msearch euclidean deleted fuel mi q k L = Val res) /\
      sound_result euclidean deleted mi q k res /\
      (forall i v, mi_graph mi !! i = Some v ->
         exists o, o ∈ ops /\ in_id o = i /\ in_vec o = dv_vec v) /\
      (forall o, o ∈ ops -> exists v, mi_graph mi !! in_id o = Some v).
Proof.
  intros ops first deg dim deleted q k L Hne Hops Hq.
  destruct (mrun_ok euclidean dim ops (euclid_dist_total dim) Hops (new_mindex first deg dim))
    as (F1 & mi & E1 & Hw & Hd & _ & _ & Hsk & Hon); [apply wfm_new|done|done|].
  pose proof (wfm_linked mi Hw (Hon Hne)) as Hli. destruct Hw as (Hu & _).
  destruct (C56_search_sound euclidean deleted mi q k L Hli) as (F2 & res & E2 & Hres).
  { apply measurable_ok; [apply euclid_dist_total|done|congruence]. }
  exists (Nat.max F1 F2), mi, res. split; [intros fuel Hf; split; [apply E1|apply E2]; lia|]. split; [done|].
  clear E1 E2 Hres Hli Hon Hne Hd Hops. split.
  - intros i v Hv%skel_lookup. rewrite Hsk in Hv. cbn [new_mindex mi_graph] in Hv.
    assert (forall g0, mstored ops g0 !! i = Some (dv_id v, dv_obj v, dv_vec v) ->
      g0 !! i = Some (dv_id v, dv_obj v, dv_vec v) \/ exists o, o ∈ ops /\ in_id o = i /\ in_vec o = dv_vec v) as H.
    { clear. induction ops as [|o ops IH]; intros g0; cbn [mstored foldl]; [by left|].
      intros [H|(o' & Ho' & H1 & H2)]%IH.
      - apply lookup_insert_Some in H as [[<- [= _ _ H]]|[_ H]]; [|by left]. right. exists o. split_and!; [left|done|done].
      - right. exists o'. split_and!; [by right|done|done]. }
    destruct (H _ Hv) as [H'|H']; [|done]. unfold skel in H'. rewrite fmap_empty, lookup_empty in H'. done.
  - intros o Ho. apply elem_of_dom. rewrite <- skel_dom, Hsk. generalize (skel (mi_graph (new_mindex first deg dim))).
    clear - Ho. induction ops as [|o' ops IH]; intros g0; [by inversion Ho|]. cbn [mstored foldl].
    apply elem_of_cons in Ho as [-> |Ho]; [|by apply IH].
    clear IH. assert (in_id o' ∈ dom (<[in_id o' := (in_id o', 0%N, in_vec o')]> g0)) as H by (rewrite dom_insert_L; set_solver).
    revert H. generalize (<[in_id o' := (in_id o', 0%N, in_vec o')]> g0). induction ops as [|o2 ops IH]; intros g1 H1; cbn [mstored foldl]; [done|].
    apply IH. rewrite dom_insert_L. set_solver.
Qed.
Print Assumptions C56_search_sound_after_inserts.

(** Searching before the first insert dereferences nil. *)
Theorem C56_empty_index_panics :
  forall dist deleted fuel first deg dim q k L, msearch dist deleted fuel (new_mindex first deg dim) q k L = Pan PNil.
Proof. done. Qed.
Print Assumptions C56_empty_index_panics.

(** ** C57 All vertex ids are distinguished *)
(** A reachable vertex: the start, or a neighbour of a reachable one. *)
Definition target (deleted : gset N) (mi : mindex) (i : N) : Prop :=
  reach (mi_graph mi) (mi_s mi) i /\ exists v, mi_graph mi !! i = Some v /\ dv_obj v ∉ deleted.

(** What holds: when no two vertices share their low 32 bits and the list is
    large enough never to overflow, a search finds exactly the k nearest of the
    reachable, undeleted vertices. *)
Theorem C57_distinguishes_ids_partial :
  forall dist deleted mi q k L,
    linked mi -> (forall i v, mi_graph mi !! i = Some v -> exists d, dist (dv_vec v) q = Val d) ->
    (forall i j v w, mi_graph mi !! i = Some v -> mi_graph mi !! j = Some w ->
       (i mod 2 ^ 32 = j mod 2 ^ 32)%N -> i = j) ->
    sum_list_with (fun p => length (dv_nbrs p.2)) (map_to_list (mi_graph mi)) < L ->
    exists F res rest,
      (forall fuel, F <= fuel -> msearch dist deleted fuel mi q k L = Val res) /\
      Forall (truthful dist deleted mi q) (res ++ rest) /\
      NoDup (e_id <$> res ++ rest) /\
      (forall i, i ∈ e_id <$> res ++ rest <-> target deleted mi i) /\
      length res = Nat.min k (length (res ++ rest)) /\
      ((forall i v, mi_graph mi !! i = Some v -> dist (dv_vec v) q <> Val S754_nan) ->
         ascending res /\ forall x y, x ∈ res -> y ∈ rest -> SFltb (e_dist y) (e_dist x) = false).
Proof.
  intros dist deleted mi q k L [Hc Hs]%linked_closed Hm Hinj HL. set (F := 1 + work ∅ (mi_graph mi)).
  assert (work ∅ (mi_graph mi) = sum_list_with (fun p => length (dv_nbrs p.2)) (map_to_list (mi_graph mi))) as Hw.
  { unfold work, work_list. generalize (map_to_list (mi_graph mi)). intros l. induction l as [|p l IH]; [done|].
    cbn [sum_list_with]. rewrite IH. rewrite bool_decide_false by set_solver. done. }
  destruct (mvisit_ok dist deleted F mi q L) as (cs & vis & E & Hcol); try done.
  destruct (mvisit_complete dist deleted F mi q L) as (cs' & E' & Hall); try done.
  { intros i j [v Hv]%elem_of_dom [w Hw']%elem_of_dom Hij. by eapply Hinj. }
  rewrite E in E'. apply Val_inj in E' as <-.
  destruct (msearch_split dist deleted F mi q k L cs E) as (res & rest & Er & Hp & Hl & Hord).
  exists F, res, rest. split.
  { intros fuel Hf. apply (mvisit_mono _ _ _ fuel) in E as E2; [|done]. unfold msearch in *. rewrite E2. by rewrite E in Er. }
  pose proof Hcol as [Hnd Hf]. rewrite Hp in Hf.
  split. { eapply Forall_impl; [exact Hf|]. intros e (_ & (_ & v & Hv & Hd) & Hn). exists v. split_and!; auto. }
  split. { rewrite <- Hp. by apply (NoDup_fmap_of e_id u32) in Hnd. }
  split.
  { intros i. split.
    - intros (e & -> & He)%elem_of_list_fmap. rewrite Forall_forall in Hf.
      destruct (Hf _ He) as (_ & (Hr & v & Hv & Hd) & Hn). split; [done|]. exists v. split; [done|]. by apply Hn.
    - intros (Hr & v & Hv & Hn). rewrite <- Hp. by eapply Hall. }
  split; [by rewrite <- Hp|]. intros Hn. apply Hord. by eapply collected_enum.
Qed.
Print Assumptions C57_distinguishes_ids_partial.

Definition f1 (bits : N) : fvec := [bits].
Definition thr12 : fl := f32_val 1067030938%N. (* 1.2 *)
(** two inserts: vertex 1 at 1.0 and vertex 2^32+1 at 2.0 *)
Definition wide_ops : list mins :=
  [MIns 1 (f1 1065353216%N) 10 thr12 ∅; MIns (2 ^ 32 + 1) (f1 1073741824%N) 10 thr12 ∅].

(** The full claim is false: searching for the second vector, with room for
    both, returns only the first vertex, though the second is its neighbour. *)
Theorem C57_distinguishes_ids_refuted :
  exists ops fuel mi q k L res i,
    mrun euclidean fuel (new_mindex 1 8 1) ops = Val mi /\ target ∅ mi i /\
    size (mi_graph mi) <= k /\ size (mi_graph mi) < L /\
    msearch euclidean ∅ fuel mi q k L = Val res /\ i ∉ e_id <$> res.
Proof.
  destruct (mrun euclidean 10 (new_mindex 1 8 1) wide_ops) as [mi|?|?] eqn:E; [|vm_compute in E; discriminate E..].
  destruct (msearch euclidean ∅ 10 mi (f1 1073741824%N) 10 10) as [res|?|?] eqn:Es.
  2,3: exfalso; vm_compute in E; apply Val_inj in E; subst mi; vm_compute in Es; discriminate Es.
  exists wide_ops, 10, mi, (f1 1073741824%N), 10, 10, res, (2 ^ 32 + 1)%N.
  vm_compute in E. apply Val_inj in E. subst mi. vm_compute in Es. apply Val_inj in Es. subst res.
  split; [by vm_compute|]. split.
  { split.
    - apply (ReachStep _ _ 1%N (DVertex 1 0 [(2 ^ 32 + 1)%N] (f1 1065353216%N))); [constructor|by vm_compute|left].
    - exists (DVertex (2 ^ 32 + 1) 0 [1%N] (f1 1073741824%N)). split; [by vm_compute|]. set_solver. }
  split; [vm_compute; lia|]. split; [vm_compute; lia|]. split; [by vm_compute|].
  cbn [fmap list_fmap e_id]. intros H. apply elem_of_list_singleton in H. discriminate H.
Qed.
Print Assumptions C57_distinguishes_ids_refuted.

(** With ids 1 and 2 the same inserts and search find both. *)
Definition near_ops : list mins :=
  [MIns 1 (f1 1065353216%N) 10 thr12 ∅; MIns 2 (f1 1073741824%N) 10 thr12 ∅; MIns 3 (f1 1082130432%N) 10 thr12 ∅].
Example C57_case :
  match mrun euclidean 20 (new_mindex 1 8 1) near_ops with
  | Val mi => match msearch euclidean ∅ 20 mi (f1 1073741824%N) 2 10 with Val r => map e_id r = [2; 1]%N | _ => False end
  | _ => False
  end.
Proof. by vm_compute. Qed.

(** ** C55 The degree bound *)
Definition degree_bounded (mi : mindex) : Prop :=
  forall i v, mi_graph mi !! i = Some v -> (N.of_nat (length (dv_nbrs v)) <= mi_deg mi)%N.

(** The full claim is false: three points on a line, bound 1, threshold 1;
    the last lies between the others and keeps both as neighbours. *)
Definition deg_ops : list mins :=
  [MIns 1 (f1 0%N) 10 (f32_val 1065353216%N) ∅; MIns 2 (f1 1082130432%N) 10 (f32_val 1065353216%N) ∅;
   MIns 3 (f1 1073741824%N) 10 (f32_val 1065353216%N) ∅].
Theorem C55_degree_bound_refuted :
  exists ops fuel mi, Forall (fun o => vec_ok 1 (in_vec o)) ops /\ NoDup (in_id <$> ops) /\
    mrun euclidean fuel (new_mindex 1 1 1) ops = Val mi /\ ~ degree_bounded mi.
Proof.
  destruct (mrun euclidean 20 (new_mindex 1 1 1) deg_ops) as [mi|?|?] eqn:E; [|vm_compute in E; discriminate E..].
  exists deg_ops, 20, mi. split.
  { repeat constructor; vm_compute; discriminate. }
  split. { clear E. apply (bool_decide_unpack _). by vm_compute. }
  split; [done|]. vm_compute in E. apply Val_inj in E. subst mi.
  intros H. specialize (H 3%N (DVertex 3 0 [1; 2]%N (f1 1073741824%N)) ltac:(by vm_compute)). vm_compute in H. by apply H.
Qed.
Print Assumptions C55_degree_bound_refuted.

(** Nor does pruning an overfull vertex bring it back to the bound: vertex 1
    is pruned when the third point arrives on its other side, and keeps both. *)
Definition prune_ops : list mins :=
  [MIns 1 (f1 0%N) 10 (f32_val 1065353216%N) ∅; MIns 2 (f1 1082130432%N) 10 (f32_val 1065353216%N) ∅;
   MIns 3 (f1 3229614080%N) 10 (f32_val 1065353216%N) ∅].
Theorem C55_pruned_vertex_refuted :
  exists fuel mi v, mrun euclidean fuel (new_mindex 1 1 1) prune_ops = Val mi /\
    mi_graph mi !! 1%N = Some v /\ dv_nbrs v = [2; 3]%N /\ mi_deg mi = 1%N.
Proof.
  destruct (mrun euclidean 20 (new_mindex 1 1 1) prune_ops) as [mi|?|?] eqn:E; [|vm_compute in E; discriminate E..].
  exists 20, mi, (DVertex 1 0 [2; 3]%N (f1 0%N)). split; [done|]. vm_compute in E. apply Val_inj in E. subst mi.
  split; [by vm_compute|]. split; reflexivity.
Qed.
Print Assumptions C55_pruned_vertex_refuted.

Lemma mrun_simple dim ops : Forall (fun o => vec_ok dim (in_vec o) /\ finite (in_thr o)) ops ->
  forall mi, wfm mi -> mi_dim mi = dim -> mi_ro mi = false -> simple (mi_graph mi) ->
  (forall i v, mi_graph mi !! i = Some v -> Forall f32_finite (dv_vec v)) ->
  NoDup (in_id <$> ops) -> (forall o, o ∈ ops -> in_id o ∉ dom (mi_graph mi)) ->
  exists F mi', (forall fuel, F <= fuel -> mrun euclidean fuel mi ops = Val mi') /\ wfm mi' /\ simple (mi_graph mi') /\
    mi_deg mi' = mi_deg mi /\ size (mi_graph mi') = size (mi_graph mi) + length ops.
Proof.
  induction ops as [|o ops IH]; intros Hops mi Hw Hdim Hro Hsi Hfin Hnd Hfr.
  { exists 0, mi. split_and!; try done. }
  inversion_clear Hops as [|?? [[Ho Hof] Hot] Hops']. apply NoDup_cons in Hnd as [Hn1 Hnd].
  set (F1 := 1 + work ∅ (<[in_id o := DVertex (in_id o) 0 [] (in_vec o)]> (mi_graph mi))).
  destruct (minsert_ok euclidean (in_del o) F1 mi (in_vec o) (in_list o) (in_thr o) (in_id o))
    as (mi1 & E1 & Hw1 & Hsk1 & Hd1 & Hdeg1 & Hf1 & Hro1 & Hon1 & Hsi1);
    [rewrite Hdim; apply euclid_dist_total|done|done|congruence|done|].
  assert (forall i v, mi_graph mi1 !! i = Some v -> Forall f32_finite (dv_vec v)) as Hfin1.
  { intros i v Hv%skel_lookup. rewrite Hsk1 in Hv. apply lookup_insert_Some in Hv as [[_ [= _ _ <-]]|[_ Hv]]; [done|].
    apply skel_inv in Hv as (w & Hv & _ & _ & <-). by eapply Hfin. }
  assert (in_id o ∉ dom (mi_graph mi)) as Hfo by (apply Hfr; left).
  assert (dom (mi_graph mi1) = {[in_id o]} ∪ dom (mi_graph mi)) as Hdom.
  { by rewrite <- skel_dom, Hsk1, dom_insert_L, skel_dom. }
  destruct (IH Hops' mi1) as (F2 & mi2 & E2 & Hw2 & Hsi2 & Hdeg2 & Hsz2); try done; try congruence.
  - apply Hsi1; [|done|done]. by apply euclid_sane.
  - intros o' Ho'. rewrite Hdom. intros [H|H]%elem_of_union; [|by apply (Hfr o'); [right|]].
    apply elem_of_singleton in H. apply Hn1. rewrite <- H. by apply elem_of_list_fmap_1.
  - exists (Nat.max F1 F2), mi2. split_and!; try done; try congruence.
    + intros fuel Hf. cbn [mrun]. rewrite (minsert_mono _ _ F1 fuel _ _ _ _ _ _ ltac:(lia) E1). cbn [mbind out_bind].
      apply E2. lia.
    + rewrite Hsz2. cbn [length]. rewrite <- !size_dom, Hdom, size_union, size_singleton by set_solver. lia.
Qed.

(** What holds: with distinct ids, finite vectors and finite thresholds, no
    vertex lists a neighbour twice or lists itself, so a vertex has fewer
    neighbours than there are vertices; the bound holds as long as at most
    maxDegree + 1 vertices have been inserted. *)
Theorem C55_degree_bound_partial :
  forall ops first deg dim,
    Forall (fun o => vec_ok dim (in_vec o) /\ finite (in_thr o)) ops -> NoDup (in_id <$> ops) ->
    exists F mi, (forall fuel, F <= fuel -> mrun euclidean fuel (new_mindex first deg dim) ops = Val mi) /\
      (forall i v, mi_graph mi !! i = Some v ->
         NoDup (dv_nbrs v) /\ i ∉ dv_nbrs v /\ length (dv_nbrs v) < length ops /\
         forall n, n ∈ dv_nbrs v -> exists w, mi_graph mi !! n = Some w) /\
      ((N.of_nat (length ops) <= deg + 1)%N -> degree_bounded mi).
Proof.
  intros ops first deg dim Hops Hnd.
  destruct (mrun_simple dim ops Hops (new_mindex first deg dim)) as (F & mi & E & (Hu & Hc & _) & Hsi & Hdeg & Hsz);
    [apply wfm_new|done|done|intros i v H; cbn in H; by rewrite lookup_empty in H|intros i v H; cbn in H; by rewrite lookup_empty in H|done|
     intros o _; cbn; set_solver|].
  cbn [new_mindex mi_graph mi_deg] in *. rewrite map_size_empty in Hsz. cbn [Nat.add] in Hsz.
  assert (forall i v, mi_graph mi !! i = Some v -> length (dv_nbrs v) < length ops) as Hlt.
  { intros i v Hv. destruct (Hsi _ _ Hv) as [H1 H2]. pose proof (Hc _ _ Hv) as H3. rewrite Forall_forall in H3.
    rewrite <- Hsz, <- size_dom.
    assert (size (list_to_set (C:=gset N) (i :: dv_nbrs v)) <= size (dom (mi_graph mi))) as H.
    { apply subseteq_size. intros x. rewrite elem_of_list_to_set, elem_of_cons. intros [-> |Hx]; [|by apply H3].
      apply elem_of_dom. by eexists. }
    rewrite size_list_to_set in H by (by constructor). cbn [length] in H. lia. }
  exists F, mi. split; [done|]. split.
  - intros i v Hv. destruct (Hsi _ _ Hv) as [H1 H2]. split_and!; [done|done|by eapply Hlt|].
    intros n Hn. apply elem_of_dom. pose proof (Hc _ _ Hv) as H3. rewrite Forall_forall in H3. by apply H3.
  - intros Hle i v Hv. rewrite Hdeg. specialize (Hlt _ _ Hv). lia.
Qed.
Print Assumptions C55_degree_bound_partial.

Example C55_case : Forall (fun o => vec_ok 1 (in_vec o) /\ finite (in_thr o)) deg_ops /\ NoDup (in_id <$> deg_ops).
Proof.
  split; [|apply (bool_decide_unpack _); by vm_compute].
  repeat (constructor; [split; [split; [done|repeat constructor; vm_compute; discriminate]|done]|]). constructor.
Qed.

(** ** C54 Snapshots round-trip *)
Definition same_index (mi mi' : mindex) : Prop :=
  mi_graph mi' = mi_graph mi /\ mi_s mi' = mi_s mi /\ mi_dim mi' = mi_dim mi /\ mi_deg mi' = mi_deg mi /\
  mi_first mi' = mi_first mi.

(** The full claim is false.  Two inserted vertices, neighbours of each other:
    the snapshot is read back with other vectors and neighbours. *)
Definition snap_ops : list mins :=
  [MIns 1 (f1 1065353216%N) 10 thr12 ∅; MIns 2 (f1 1073741824%N) 10 thr12 ∅].
Theorem C54_round_trip_refuted :
  exists fuel mi f mi', mrun euclidean fuel (new_mindex 1 1 1) snap_ops = Val mi /\
    write_index mi = Val f /\ read_index f = Val mi' /\
    dv_vec <$> (mi_graph mi !! 2%N) = Some (f1 1073741824%N) /\
    dv_vec <$> (mi_graph mi' !! 2%N) = Some (f1 0%N) /\
    dv_nbrs <$> (mi_graph mi !! 2%N) = Some [1%N] /\ dv_nbrs <$> (mi_graph mi' !! 2%N) <> Some [1%N].
Proof.
  destruct (mrun euclidean 20 (new_mindex 1 1 1) snap_ops) as [mi|?|?] eqn:E; [|vm_compute in E; discriminate E..].
  destruct (write_index mi) as [f|?|?] eqn:Ew.
  2,3: exfalso; vm_compute in E; apply Val_inj in E; subst mi; vm_compute in Ew; discriminate Ew.
  destruct (read_index f) as [mi'|?|?] eqn:Er.
  2,3: exfalso; vm_compute in E; apply Val_inj in E; subst mi; vm_compute in Ew; apply Val_inj in Ew; subst f;
       vm_compute in Er; discriminate Er.
  exists 20, mi, f, mi'. split; [exact E|]. split; [exact Ew|]. split; [exact Er|].
  vm_compute in E. apply Val_inj in E. subst mi. vm_compute in Ew. apply Val_inj in Ew. subst f.
  vm_compute in Er. apply Val_inj in Er. subst mi'.
  split; [reflexivity|]. split; [reflexivity|]. split; [reflexivity|]. vm_compute. intros H. discriminate H.
Qed.
Print Assumptions C54_round_trip_refuted.

(** Worse, a snapshot may panic: with dimension 1020 and degree bound 3 a page
    holds one vertex, and a vertex with one neighbour overruns it. *)
Theorem C54_snapshot_panics_refuted :
  exists ops fuel mi, Forall (fun o => vec_ok 1020 (in_vec o)) ops /\ NoDup (in_id <$> ops) /\
    mrun euclidean fuel (new_mindex 1 3 1020) ops = Val mi /\ degree_bounded mi /\ write_index mi = Pan PIndex.
Proof.
  set (z := replicate 1020 0%N). set (ops := [MIns 1 z 10 thr12 ∅; MIns 2 z 10 thr12 ∅]).
  assert (vec_ok 1020 z) as Hz.
  { split; [by vm_compute|]. apply Forall_replicate. vm_compute. discriminate. }
  assert (match mrun euclidean 20 (new_mindex 1 3 1020) ops with Val mi => write_index mi = Pan PIndex | _ => False end) as Hw.
  { vm_compute. reflexivity. }
  clearbody z. destruct (mrun euclidean 20 (new_mindex 1 3 1020) ops) as [mi|?|?] eqn:E; [|done..].
  assert (NoDup (in_id <$> ops)) as Hnd by (clear; apply (bool_decide_unpack _); by vm_compute).
  destruct (C55_degree_bound_partial ops 1 3 1020) as (F & mi0 & E0 & _ & Hd).
  { constructor; [by split|]. constructor; [by split|]. constructor. }
  { exact Hnd. }
  assert (mi0 = mi) as ->.
  { specialize (E0 (Nat.max F 20) ltac:(lia)). apply (mrun_mono _ 20 (Nat.max F 20)) in E; [|lia]. rewrite E in E0.
    by apply Val_inj in E0. }
  exists ops, 20, mi. split; [constructor; [exact Hz|]; constructor; [exact Hz|]; constructor|].
  split; [exact Hnd|]. split; [exact E|]. split; [|exact Hw]. apply Hd. cbn. lia.
Qed.
Print Assumptions C54_snapshot_panics_refuted.

(** What holds: an index whose vertices have no neighbours, with consecutive
    ids from firstId, comes back unchanged (for a degree bound other than 1,
    where reading a padding entry runs into the next vertex). *)
Theorem C54_round_trip_partial :
  forall mi,
    (forall i v, mi_graph mi !! i = Some v ->
       dv_id v = i /\ dv_nbrs v = [] /\ N.of_nat (length (dv_vec v)) = mi_dim mi /\ (dv_obj v < 2 ^ 32)%N /\
       Forall (fun x => x < 2 ^ 32)%N (dv_vec v)) ->
    (forall i, (exists v, mi_graph mi !! i = Some v) <->
               (mi_first mi <= i < mi_first mi + N.of_nat (size (mi_graph mi)))%N) ->
    (mi_first mi + N.of_nat (size (mi_graph mi)) <= 2 ^ 64)%N -> (mi_first mi < 2 ^ 64)%N ->
    (N.of_nat (size (mi_graph mi)) < 2 ^ 32)%N -> (mi_s mi < 2 ^ 64)%N ->
    (4 * (1 + mi_dim mi + mi_deg mi) <= 4096)%N -> mi_deg mi <> 1%N ->
    exists f mi', write_index mi = Val f /\ read_index f = Val mi' /\ same_index mi mi'.
Proof.
  intros mi Hv Hdom Hlast Hfirst Hsz Hs Hfit Hdeg.
  assert (bare (mi_graph mi) (mi_dim mi)) as Hb.
  { intros i v Hi. destruct (Hv _ _ Hi) as (H1 & H2 & H3 & H4 & H5). split_and!; try done.
    assert (mi_first mi <= i < mi_first mi + N.of_nat (size (mi_graph mi)))%N by (apply Hdom; by eexists). lia. }
  assert (forall x, x ∈ dom (mi_graph mi) <-> (mi_first mi <= x < mi_first mi + N.of_nat (size (mi_graph mi)))%N) as Hd.
  { intros x. rewrite elem_of_dom. apply Hdom. }
  destruct (meta_round mi page_size) as (m & Em & Hlm & Dm); [unfold page_size; lia|lia|lia|done|done|].
  set (d := (4 * (1 + mi_dim mi + mi_deg mi))%N) in *.
  assert (per_page (mi_dim mi) (mi_deg mi) = Val (4096 / d)%N) as Hpp.
  { unfold per_page. rewrite (u32_small (1 + _ + _)) by lia. fold d. rewrite u32_small by lia.
    destruct (N.eqb_spec d 0) as [E0|_]; [lia|]. done. }
  assert (1 <= 4096 / d)%N as Hk1 by (apply N.div_le_lower_bound; lia).
  assert (d * (4096 / d) <= 4096)%N as Hkd by (apply N.mul_div_le; lia).
  set (k := (4096 / d)%N) in *. clearbody k.
  destruct (ser_pages_bare (mi_graph mi) (mi_dim mi) (mi_deg mi) (size (mi_graph mi)) (N.to_nat k) (mi_first mi)
              (size (mi_graph mi))) as (ps & Ep & Hps); [done|done|lia| |done| |].
  { unfold vsize, page_size. lia. }
  { intros x Hx%elem_of_seqn. by apply Hd. }
  exists (m :: ps).
  destruct (Hps (m :: ps) 1 ∅ (size (mi_graph mi))) as (g' & Eg & Hg); [done|done|].
  exists (MIndex g' (mi_s mi) (mi_dim mi) (mi_deg mi) (mi_first mi) false false (N.of_nat (size (mi_graph mi)))).
  split.
  { unfold write_index. rewrite Em. cbn [mbind out_bind]. rewrite Hpp. cbn [mbind out_bind].
    destruct (N.eqb_spec k 0) as [E0|_]; [lia|]. rewrite (sorted_ids_seqn _ _ Hd), seqn_length, Ep. done. }
  split.
  { unfold read_index, read_page at 1. cbn [lookup list_lookup]. cbn [mbind out_bind]. rewrite Dm. cbn [mbind out_bind].
    rewrite Hpp. cbn [mbind out_bind]. destruct (N.eqb_spec k 0) as [E0|_]; [lia|].
    unfold mi_count. rewrite u32_small by done. rewrite Nat2N.id, Eg. done. }
  split_and!; try done. cbn [mi_graph]. apply map_eq. intros i. rewrite Hg. case_bool_decide as Hi; [done|].
  rewrite lookup_empty. symmetry. apply not_elem_of_dom. rewrite Hd. rewrite elem_of_seqn in Hi. done.
Qed.
Print Assumptions C54_round_trip_partial.

(** Three vertices of dimension 500, two to a page. *)
Example C54_case :
  let g : gmap N dvertex := {[5%N := DVertex 5 9 [] (replicate 500 1065353216%N);
                              6%N := DVertex 6 0 [] (replicate 500 0%N);
                              7%N := DVertex 7 1 [] (replicate 500 4294967295%N)]} in
  match (write_index (MIndex g 6 500 3 5 true false 0)) with
  | Val f => length f = 3 /\ match read_index f with Val mi' => map_to_list (mi_graph mi') = map_to_list g | _ => False end
  | _ => False
  end.
Proof. by vm_compute. Qed.
