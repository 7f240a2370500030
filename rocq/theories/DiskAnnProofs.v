(** Lemmas about the DiskANN memory index: search, pruning and insertion. *)
From Verif Require Import GoBase FloatModel HeapModel MMHeapModel DiskAnnModel.
From Coq Require Import Sorted.
From Verif Require Import ProofBase FloatProofs HeapProofs MMHeapProofs CodecProofs.
Open Scope nat_scope.

(** ** Popping from a min-max heap loses nothing, NaN or not *)
Lemma pop_split {A} (l l2 : list A) i x :
  l2 ≡ₚ l -> i = length l - 1 -> l <> [] -> l2 !! i = Some x -> l ≡ₚ x :: take i l2.
Proof.
  intros Hp Hi Hl Hx. assert (length l2 = length l) as El by (by rewrite Hp). rewrite <- Hp.
  rewrite <- (take_drop_middle l2 _ _ Hx) at 1.
  rewrite drop_ge; [by rewrite Permutation_app_comm|].
  destruct l; [done|]. cbn [length] in *. lia.
Qed.
Lemma mm_pop_perm less (l : list elem) x l' : mm_pop less l = Val (x, l') -> l ≡ₚ x :: l'.
Proof.
  unfold mm_pop. destruct l as [|a l]; [done|]. set (l0 := a :: l).
  set (l2 := fst _). destruct (l2 !! _) eqn:E; [|done]. intros [-> <-]%Val_inj%pair_inj.
  apply (pop_split l0); [|done..]. unfold l2. by rewrite mm_down_perm, swap_perm.
Qed.
Lemma mm_pop_max_perm less (l : list elem) x l' : mm_pop_max less l = Val (x, l') -> l ≡ₚ x :: l'.
Proof.
  unfold mm_pop_max. destruct l as [|a l]; [done|]. set (l0 := a :: l).
  set (l2 := fst _). destruct (l2 !! _) eqn:E; [|done]. intros [-> <-]%Val_inj%pair_inj.
  apply (pop_split l0); [|done..]. unfold l2. by rewrite mm_down_perm, swap_perm.
Qed.

(** ** The work left: neighbour entries of the vertices not visited yet *)
Definition work_list (vis : gset N) (l : list (N * dvertex)) : nat :=
  sum_list_with (fun p => if bool_decide (u32 p.1 ∈ vis) then 0 else length (dv_nbrs p.2)) l.
Definition work (vis : gset N) (g : gmap N dvertex) : nat := work_list vis (map_to_list g).

Lemma work_list_mono vis x l : work_list ({[x]} ∪ vis) l <= work_list vis l.
Proof.
  unfold work_list. induction l as [|[i v] l IH]; cbn [sum_list_with fst snd]; [lia|].
  repeat case_bool_decide; [lia|lia|set_solver|lia].
Qed.
Lemma work_list_visit vis l i v :
  (i, v) ∈ l -> u32 i ∉ vis -> work_list ({[u32 i]} ∪ vis) l + length (dv_nbrs v) <= work_list vis l.
Proof.
  intros Hin Hi. unfold work_list. induction l as [|[j w] l IH]; [by inversion Hin|].
  cbn [sum_list_with fst snd]. apply elem_of_cons in Hin as [[= -> ->]|Hin].
  - rewrite bool_decide_true by set_solver. rewrite bool_decide_false by done.
    pose proof (work_list_mono vis (u32 j) l) as H. unfold work_list in H. lia.
  - specialize (IH Hin). repeat case_bool_decide; [lia|lia|set_solver|lia].
Qed.
Lemma work_visit vis g i v :
  g !! i = Some v -> u32 i ∉ vis -> work ({[u32 i]} ∪ vis) g + length (dv_nbrs v) <= work vis g.
Proof. intros H. apply work_list_visit. by apply elem_of_map_to_list. Qed.

(** a vertex a search can reach *)
Inductive reach (g : gmap N dvertex) (s : N) : N -> Prop :=
| ReachStart : reach g s s
| ReachStep i v n : reach g s i -> g !! i = Some v -> n ∈ dv_nbrs v -> reach g s n.

Section mem.
  Context (dist : fvec -> fvec -> out fl) (deleted : gset N).

  Section search.
    Context (g : gmap N dvertex) (q : fvec) (s : N).
    (** the neighbours of every vertex exist and distances to [q] exist *)
    Definition closed : Prop := forall i v, g !! i = Some v -> Forall (fun n => n ∈ dom g) (dv_nbrs v).
    Definition measurable : Prop := forall i v, g !! i = Some v -> exists d, dist (dv_vec v) q = Val d.
    (** a reachable vertex with its true distance *)
    Definition hit (e : elem) : Prop := reach g s (e_id e) /\ exists v, g !! e_id e = Some v /\ dist (dv_vec v) q = Val (e_dist e).

    Lemma shrink_ok n h L : length h <= n -> Forall hit h ->
      exists h', shrink n h L = Val h' /\ Forall hit h' /\ length h' <= length h /\ (length h <= L -> h' = h).
    Proof.
      revert h. induction n as [|n IH]; intros h Hn Hh; cbn [shrink].
      - destruct (Nat.ltb_spec L (length h)); [lia|]. by exists h.
      - destruct (Nat.ltb_spec L (length h)) as [Hlt|Hge]; [|by exists h].
        destruct (mm_pop_max_some min_less h) as (x & h1 & E); [intros ->; cbn [length] in Hlt; lia|].
        rewrite E. cbn [mbind out_bind]. apply mm_pop_max_perm in E.
        assert (length h = S (length h1)) as El by (by rewrite E).
        destruct (IH h1) as (h' & E' & Hh' & Hl' & _); [lia|rewrite E in Hh; by inversion Hh|].
        exists h'. split_and!; [done|done|lia|lia].
    Qed.

    Lemma push_nbrs_ok ns h L : measurable -> Forall (fun n => n ∈ dom g) ns -> Forall (reach g s) ns -> Forall hit h ->
      exists h', push_nbrs dist g q ns h L = Val h' /\ Forall hit h' /\ length h' <= length h + length ns /\
        (length h + length ns <= L -> e_id <$> h' ≡ₚ ns ++ (e_id <$> h)).
    Proof.
      intros Hm. revert h. induction ns as [|n ns IH]; intros h Hns Hrs Hh; cbn [push_nbrs].
      { exists h. split_and!; [done|done|lia|done]. }
      inversion_clear Hns as [|?? Hn Hns']. inversion_clear Hrs as [|?? Hr Hrs'].
      apply elem_of_dom in Hn as [v Hv]. rewrite Hv. cbn [or_pan mbind out_bind].
      destruct (Hm _ _ Hv) as [d Hd]. rewrite Hd. cbn [mbind out_bind].
      set (h1 := mm_push min_less h (Elem n d)).
      assert (h1 ≡ₚ Elem n d :: h) as Hp1 by apply mm_push_perm.
      assert (length h1 = S (length h)) as Hl1 by (by rewrite Hp1).
      destruct (shrink_ok (length h1) h1 L) as (h2 & E2 & Hh2 & Hl2 & Hs2); [done| |].
      { rewrite Hp1. constructor; [|done]. split; [done|]. by exists v. }
      rewrite E2. cbn [mbind out_bind].
      destruct (IH h2) as (h' & E' & Hh' & Hl' & Hc'); [done..|].
      exists h'. split_and!; [done|done|cbn [length]; lia|]. cbn [length]. intros HL.
      rewrite Hc' by lia. rewrite Hs2 by lia. rewrite Hp1. cbn [fmap list_fmap e_id app].
      by rewrite Permutation_middle.
    Qed.

    (** what has been collected: distinct visited vertices, none deleted *)
    Definition collected (vis : gset N) (acc : list elem) : Prop :=
      NoDup ((fun e => u32 (e_id e)) <$> acc) /\
      Forall (fun e => u32 (e_id e) ∈ vis /\ hit e /\
                       forall v, g !! e_id e = Some v -> dv_obj v ∉ deleted) acc.

    Lemma collected_visit vis acc m v :
      collected vis acc -> u32 (e_id m) ∉ vis -> hit m -> g !! e_id m = Some v ->
      collected ({[u32 (e_id m)]} ∪ vis) (if bool_decide (dv_obj v ∈ deleted) then acc else acc ++ [m]).
    Proof.
      intros [Hnd Hf] Hm Hhit Hv.
      assert (Forall (fun e => u32 (e_id e) ∈ {[u32 (e_id m)]} ∪ vis /\ hit e /\
        forall v, g !! e_id e = Some v -> dv_obj v ∉ deleted) acc) as Hf'.
      { eapply Forall_impl; [exact Hf|]. intros e (H1 & H2 & H3). split_and!; [set_solver|done|done]. }
      case_bool_decide as Hd; [done|]. split.
      - rewrite fmap_app. apply NoDup_app. split_and!; [done| |apply NoDup_singleton].
        intros x Hx Hx'. apply elem_of_list_singleton in Hx'. subst x.
        apply elem_of_list_fmap in Hx as (e & E & He). rewrite Forall_forall in Hf.
        destruct (Hf _ He) as [H _]. cbn beta in E. rewrite <- E in H. done.
      - apply Forall_app. split; [done|]. constructor; [|constructor].
        split_and!; [set_solver|done|]. intros w Hw. rewrite Hv in Hw. by injection Hw as <-.
    Qed.

    Lemma loop_ok fuel L h vis acc : closed -> measurable -> Forall hit h -> collected vis acc ->
      length h + work vis g <= fuel ->
      exists acc' vis', msearch_loop dist deleted fuel g q L h vis acc = Val acc' /\ collected vis' acc'.
    Proof.
      intros Hc Hm. revert h vis acc. induction fuel as [|fuel IH]; intros h vis acc Hh Hacc Hf; cbn [msearch_loop].
      { destruct h as [|? ?]; [|cbn [length] in Hf; lia]. by exists acc, vis. }
      destruct h as [|a h0]; [by exists acc, vis|]. set (h := a :: h0) in *.
      destruct (mm_pop_some min_less h) as (m & h1 & E); [done|]. rewrite E. cbn [mbind out_bind].
      apply mm_pop_perm in E. assert (length h = S (length h1)) as El by (by rewrite E).
      rewrite E in Hh. inversion_clear Hh as [|?? Hm1 Hh1]. clearbody h. clear a h0 E.
      case_bool_decide as Hv; [apply IH; [done|done|lia]|].
      destruct Hm1 as (Hr & v & Ev & Ed).
      assert (Forall (reach g s) (dv_nbrs v)) as Hrn by (apply Forall_forall; intros n Hn; by eapply ReachStep). rewrite Ev. cbn [or_pan mbind out_bind].
      destruct (push_nbrs_ok (dv_nbrs v) h1 L Hm (Hc _ _ Ev) Hrn Hh1) as (h2 & E2 & Hh2 & Hl2 & _).
      rewrite E2. cbn [mbind out_bind]. apply IH; [done| |].
      - apply collected_visit; try done. split; [done|]. by exists v.
      - pose proof (work_visit vis g _ _ Ev Hv). lia.
    Qed.

    (** ** With a list that never overflows every reachable vertex is visited *)
    Definition complete (h : list elem) (vis : gset N) (acc : list elem) : Prop :=
      (forall i v, g !! i = Some v -> u32 i ∈ vis ->
         (dv_obj v ∉ deleted -> i ∈ e_id <$> acc) /\
         forall n, n ∈ dv_nbrs v -> u32 n ∈ vis \/ n ∈ e_id <$> h).
    Definition done_vis (vis : gset N) (acc : list elem) : Prop :=
      forall i v, g !! i = Some v -> u32 i ∈ vis ->
        (dv_obj v ∉ deleted -> i ∈ e_id <$> acc) /\ forall n, n ∈ dv_nbrs v -> u32 n ∈ vis.

    Lemma loop_complete fuel L h vis acc :
      (forall i j, i ∈ dom g -> j ∈ dom g -> u32 i = u32 j -> i = j) ->
      closed -> measurable -> Forall hit h -> complete h vis acc ->
      length h + work vis g <= fuel -> length h + work vis g <= L ->
      exists acc' vis', msearch_loop dist deleted fuel g q L h vis acc = Val acc' /\ done_vis vis' acc' /\
        vis ⊆ vis' /\ (forall n, n ∈ e_id <$> h -> u32 n ∈ vis').
    Proof.
      intros Hinj Hc Hm. revert h vis acc. induction fuel as [|fuel IH]; intros h vis acc Hh Hco Hf HL; cbn [msearch_loop].
      { destruct h as [|? ?]; [|cbn [length] in Hf; lia]. exists acc, vis. split_and!; [done| |done|intros n Hn; by inversion Hn].
        intros i v Hi Hv. destruct (Hco i v Hi Hv) as [H1 H2]. split; [done|]. intros n Hn.
        destruct (H2 n Hn) as [?|Hx]; [done|by inversion Hx]. }
      destruct h as [|a h0].
      { exists acc, vis. split_and!; [done| |done|intros n Hn; by inversion Hn].
        intros i v Hi Hv. destruct (Hco i v Hi Hv) as [H1 H2]. split; [done|]. intros n Hn.
        destruct (H2 n Hn) as [?|Hx]; [done|by inversion Hx]. }
      set (h := a :: h0) in *.
      destruct (mm_pop_some min_less h) as (m & h1 & E); [done|]. rewrite E. cbn [mbind out_bind].
      apply mm_pop_perm in E. assert (length h = S (length h1)) as El by (by rewrite E).
      assert (forall n, n ∈ e_id <$> h <-> n = e_id m \/ n ∈ e_id <$> h1) as Hids.
      { intros n. rewrite E. cbn [fmap list_fmap]. apply elem_of_cons. }
      rewrite E in Hh. inversion_clear Hh as [|?? Hm1 Hh1]. clearbody h. clear a h0 E.
      case_bool_decide as Hv.
      - destruct (IH h1 vis acc) as (acc' & vis' & E' & Hd & Hsub & Hin); [done| |lia|lia|].
        + intros i v Hi Hiv. destruct (Hco i v Hi Hiv) as [H1 H2]. split; [done|]. intros n Hn.
          destruct (H2 n Hn) as [?|[-> |Hx]%Hids]; auto.
        + exists acc', vis'. split_and!; [done|done|done|]. intros n [-> |Hn]%Hids; [|auto]. by apply Hsub.
      - destruct Hm1 as (Hr & v & Ev & Ed).
      assert (Forall (reach g s) (dv_nbrs v)) as Hrn by (apply Forall_forall; intros n Hn; by eapply ReachStep). rewrite Ev. cbn [or_pan mbind out_bind].
        destruct (push_nbrs_ok (dv_nbrs v) h1 L Hm (Hc _ _ Ev) Hrn Hh1) as (h2 & E2 & Hh2 & Hl2 & Hp2).
        rewrite E2. cbn [mbind out_bind]. pose proof (work_visit vis g _ _ Ev Hv) as Hw.
        specialize (Hp2 ltac:(lia)).
        destruct (IH h2 ({[u32 (e_id m)]} ∪ vis) (if bool_decide (dv_obj v ∈ deleted) then acc else acc ++ [m]))
          as (acc' & vis' & E' & Hd & Hsub & Hin); [done| |lia|lia|].
        + intros i w Hi Hiv. apply elem_of_union in Hiv as [Hiv|Hiv].
          * apply elem_of_singleton in Hiv.
            apply Hinj in Hiv; [|by apply elem_of_dom; eexists..]. subst i.
            rewrite Ev in Hi. injection Hi as <-. split.
            -- intros Hnd. rewrite bool_decide_false by done. rewrite fmap_app. apply elem_of_app. right. by left.
            -- intros n Hn. right. rewrite Hp2. apply elem_of_app. by left.
          * destruct (Hco i w Hi Hiv) as [H1 H2]. split.
            -- intros Hnd. specialize (H1 Hnd). case_bool_decide; [done|]. rewrite fmap_app. apply elem_of_app. by left.
            -- intros n Hn. destruct (H2 n Hn) as [?|[-> |Hx]%Hids]; [left; set_solver|left; set_solver|].
               right. rewrite Hp2. apply elem_of_app. by right.
        + exists acc', vis'. split_and!; [done|done|set_solver|]. intros n [-> |Hn]%Hids; [set_solver|].
          apply Hin. rewrite Hp2. apply elem_of_app. by right.
    Qed.
  End search.

  (** ** Taking the k best *)
  Definition le_elem (a b : elem) : Prop := min_less b a = false.
  Lemma pop_k_perm k h : exists r rest, pop_k k h = Val r /\ h ≡ₚ r ++ rest /\ length r = Nat.min k (length h).
  Proof.
    revert h. induction k as [|k IH]; intros h; cbn [pop_k]; [by exists [], h|].
    destruct h as [|a h0]; [by exists [], []|]. set (h := a :: h0) in *.
    destruct (heap_pop_some min_less h) as (e & h1 & E); [done|]. rewrite E. cbn [mbind out_bind].
    apply heap_pop_perm in E. assert (length h = S (length h1)) as El by (by rewrite E).
    destruct (IH h1) as (r & rest & Er & Hp & Hl). rewrite Er. cbn [mbind out_bind].
    exists (e :: r), rest. split; [done|]. split; [by rewrite E, Hp|]. cbn [length]. lia.
  Qed.
  Lemma pop_k_sorted k h r : Forall enum h -> heap_ok min_less h -> pop_k k h = Val r ->
    StronglySorted le_elem r /\
    (forall rest, h ≡ₚ r ++ rest -> forall x y, x ∈ r -> y ∈ rest -> le_elem x y).
  Proof.
    revert h r. induction k as [|k IH]; intros h r Hg Hh; cbn [pop_k].
    { intros <-%Val_inj. split; [constructor|]. intros ?? x y Hx. by inversion Hx. }
    destruct h as [|a h0].
    { intros <-%Val_inj. split; [constructor|]. intros ?? x y Hx. by inversion Hx. }
    set (h := a :: h0) in *.
    destruct (heap_pop_some min_less h) as (e & h1 & E); [done|]. rewrite E. cbn [mbind out_bind].
    pose proof (heap_pop_perm _ _ _ _ E) as Hp.
    destruct (heap_pop_ok min_less enum min_less_irr min_less_asym min_less_ntrans _ _ _ Hg Hh E) as (Hh1 & _ & Hmin).
    clearbody h. clear a h0 E. assert (Forall enum h1) as Hg1 by (rewrite Hp in Hg; by inversion Hg).
    destruct (pop_k k h1) as [r1|?|?] eqn:Er; [|done..]. cbn [mbind out_bind]. intros <-%Val_inj.
    destruct (IH h1 r1 Hg1 Hh1 Er) as [Hs Hr].
    destruct (pop_k_perm k h1) as (r1' & rest1 & Er' & Hp1 & _). rewrite Er in Er'. apply Val_inj in Er' as <-.
    split.
    - constructor; [done|]. apply Forall_forall. intros y Hy. apply Hmin. rewrite Hp, Hp1. set_solver.
    - intros rest Hrest x y Hx Hy. cbn [app] in Hrest. rewrite Hp in Hrest. apply Permutation_cons_inv in Hrest.
      apply elem_of_cons in Hx as [-> |Hx]; [|by eapply Hr].
      apply Hmin. rewrite Hp, Hrest. set_solver.
  Qed.

  (** ** Pruning and insertion *)
  (** what inserting a neighbour never changes *)
  Definition skel (g : gmap N dvertex) : gmap N (N * N * fvec) :=
    (fun v => (dv_id v, dv_obj v, dv_vec v)) <$> g.
  Lemma skel_dom g : dom (skel g) = dom g.
  Proof. apply dom_fmap_L. Qed.
  Lemma skel_lookup g i v : g !! i = Some v -> skel g !! i = Some (dv_id v, dv_obj v, dv_vec v).
  Proof. intros H. unfold skel. by rewrite lookup_fmap, H. Qed.
  Lemma skel_inv g i a b c : skel g !! i = Some (a, b, c) ->
    exists v, g !! i = Some v /\ dv_id v = a /\ dv_obj v = b /\ dv_vec v = c.
  Proof. unfold skel. rewrite lookup_fmap. intros (v & Hv & [= -> -> ->])%fmap_Some. by exists v. Qed.
  Lemma skel_set g i v ns : g !! i = Some v ->
    skel (<[i := DVertex (dv_id v) (dv_obj v) ns (dv_vec v)]> g) = skel g.
  Proof.
    intros H. unfold skel. rewrite fmap_insert. cbn [dv_id dv_obj dv_vec]. apply insert_id.
    by rewrite lookup_fmap, H.
  Qed.

  Definition uniform (dim : N) (g : gmap N dvertex) : Prop :=
    forall i v, g !! i = Some v -> dv_id v = i /\ N.of_nat (length (dv_vec v)) = dim.
  Lemma uniform_skel dim g g' : skel g' = skel g -> uniform dim g -> uniform dim g'.
  Proof.
    intros E H i v Hv. apply skel_lookup in Hv. rewrite E in Hv.
    apply skel_inv in Hv as (w & Hw & <- & _ & <-). by apply H.
  Qed.
  Definition dist_total (dim : N) : Prop := forall x y,
    N.of_nat (length x) = dim -> N.of_nat (length y) = dim -> exists d, dist x y = Val d.

  (** no vertex is listed twice or is its own neighbour *)
  Definition simple (g : gmap N dvertex) : Prop :=
    forall i v, g !! i = Some v -> NoDup (dv_nbrs v) /\ i ∉ dv_nbrs v.
  (** distances of the stored vectors are non-negative numbers, and a vector
      is at a distance from itself which, scaled, is below all of them *)
  Definition sane (thr : fl) (g : gmap N dvertex) : Prop :=
    forall i j v w d, g !! i = Some v -> g !! j = Some w -> dist (dv_vec v) (dv_vec w) = Val d ->
      nonneg d /\ (i = j -> forall c, nonneg c -> fleb (fmul thr d) c = true).
  Lemma sane_skel thr g g' : skel g' = skel g -> sane thr g -> sane thr g'.
  Proof.
    intros E H i j v w d Hv Hw Hd. apply skel_lookup in Hv, Hw. rewrite E in Hv, Hw.
    apply skel_inv in Hv as (v' & Hv' & _ & _ & Ev), Hw as (w' & Hw' & _ & _ & Ew).
    rewrite <- Ev, <- Ew in Hd. by eapply H.
  Qed.

  Section prune.
    Context (dim : N) (Htot : dist_total dim).

    Lemma nbr_elems_ok g base ns : uniform dim g -> N.of_nat (length base) = dim ->
      Forall (fun n => n ∈ dom g) ns ->
      exists es, nbr_elems dist g base ns = Val es /\ e_id <$> es = ns /\
        Forall (fun e => exists v, g !! e_id e = Some v /\ dist base (dv_vec v) = Val (e_dist e)) es.
    Proof using Htot.
      intros Hu Hb. induction ns as [|n ns IH]; intros Hns; cbn [nbr_elems]; [by exists []|].
      inversion_clear Hns as [|?? Hn Hns']. apply elem_of_dom in Hn as [v Hv]. rewrite Hv. cbn [or_pan mbind out_bind].
      destruct (Htot base (dv_vec v)) as [d Hd]; [done|by apply (Hu _ _ Hv)|]. rewrite Hd. cbn [mbind out_bind].
      destruct (IH Hns') as (es & E & Hid & Hes). rewrite E. cbn [mbind out_bind].
      exists (Elem n d :: es). split; [done|]. split; [by cbn; rewrite Hid|]. constructor; [by exists v|done].
    Qed.
    Lemma nbr_elems_rev_ok g base ns : uniform dim g -> N.of_nat (length base) = dim ->
      Forall (fun n => n ∈ dom g) ns ->
      exists es, nbr_elems_rev dist g base ns = Val es /\ e_id <$> es = ns /\
        Forall (fun e => exists v, g !! e_id e = Some v /\ dist (dv_vec v) base = Val (e_dist e)) es.
    Proof using Htot.
      intros Hu Hb. induction ns as [|n ns IH]; intros Hns; cbn [nbr_elems_rev]; [by exists []|].
      inversion_clear Hns as [|?? Hn Hns']. apply elem_of_dom in Hn as [v Hv]. rewrite Hv. cbn [or_pan mbind out_bind].
      destruct (Htot (dv_vec v) base) as [d Hd]; [by apply (Hu _ _ Hv)|done|]. rewrite Hd. cbn [mbind out_bind].
      destruct (IH Hns') as (es & E & Hid & Hes). rewrite E. cbn [mbind out_bind].
      exists (Elem n d :: es). split; [done|]. split; [by cbn; rewrite Hid|]. constructor; [by exists v|done].
    Qed.

    Lemma mark_ok g thr m cs del : uniform dim g -> m ∈ dom g -> Forall (fun e => e_id e ∈ dom g) cs ->
      exists del', mark dist g thr m cs del = Val del' /\ del ⊆ del' /\
        (sane thr g -> Forall (fun e => nonneg (e_dist e)) cs -> m ∈ e_id <$> cs -> m ∈ del').
    Proof using Htot.
      intros Hu [mv Hm]%elem_of_dom. revert del. induction cs as [|c cs IH]; intros del Hcs; cbn [mark].
      { exists del. split_and!; [done|done|]. intros _ _ H. by inversion H. }
      inversion_clear Hcs as [|?? Hc Hcs']. rewrite Hm. cbn [or_pan mbind out_bind].
      apply elem_of_dom in Hc as [cv Hcv]. rewrite Hcv. cbn [or_pan mbind out_bind].
      destruct (Htot (dv_vec mv) (dv_vec cv)) as [d Hd]; [by apply (Hu _ _ Hm)|by apply (Hu _ _ Hcv)|].
      rewrite Hd. cbn [mbind out_bind].
      destruct (IH (if fleb (fmul thr d) (e_dist c) then {[dv_id cv]} ∪ del else del)) as (del' & E & Hsub & Hin); [done|].
      exists del'. split; [done|]. split; [destruct (fleb _ _); set_solver|].
      intros Hs Hnn. inversion_clear Hnn as [|?? Hc0 Hnn']. cbn [fmap list_fmap]. intros [Heq|Hx]%elem_of_cons; [|by apply Hin].
      destruct (Hs _ _ _ _ _ Hm Hcv Hd) as [_ H]. rewrite (H Heq _ Hc0) in Hsub.
      destruct (Hu _ _ Hcv) as [Hid _]. apply Hsub. rewrite Hid. set_solver.
    Qed.

    Lemma prune_ok n g thr nv deg h del acc : uniform dim g -> Forall (fun e => e_id e ∈ dom g) h -> length h <= n ->
      exists ns, prune_loop dist n g thr nv deg h del acc = Val ns /\
        (forall x, x ∈ ns -> x ∈ acc \/ (x ∈ e_id <$> h /\ x ∉ del)) /\
        (sane thr g -> Forall (fun e => nonneg (e_dist e)) h -> NoDup acc ->
         (forall x, x ∈ acc -> x ∈ e_id <$> h -> x ∈ del) -> NoDup ns).
    Proof using Htot.
      intros Hu. revert h del acc. induction n as [|n IH]; intros h del acc Hh Hn; cbn [prune_loop].
      { destruct h; [|cbn [length] in Hn; lia]. exists acc. split_and!; auto. }
      destruct h as [|a h0]; [exists acc; split_and!; auto|]. set (h := a :: h0) in *.
      destruct (heap_pop_some min_less h) as (m & h1 & E); [done|]. rewrite E. cbn [mbind out_bind].
      apply heap_pop_perm in E. assert (length h = S (length h1)) as El by (by rewrite E).
      assert (forall x, x ∈ e_id <$> h <-> x = e_id m \/ x ∈ e_id <$> h1) as Hids.
      { intros x. rewrite E. cbn [fmap list_fmap]. apply elem_of_cons. }
      assert (Forall (fun e => nonneg (e_dist e)) h -> Forall (fun e => nonneg (e_dist e)) h1) as Hnn1.
      { intros H. rewrite E in H. by inversion H. }
      rewrite E in Hh. inversion_clear Hh as [|?? Hm Hh1]. clearbody h. clear a h0 E.
      case_bool_decide as Hd.
      - destruct (IH h1 del acc) as (ns & E' & H1 & H2); [done|lia|]. exists ns. split_and!; [done| |].
        + intros x Hx. destruct (H1 x Hx) as [?|[? ?]]; [by left|right]. split; [|done]. apply Hids. by right.
        + intros Hs Hnn Hnd Ha. apply H2; [done|auto|done|]. intros x Hx Hx'. apply Ha; [done|]. apply Hids. by right.
      - destruct (N.of_nat nv =? deg)%N.
        + exists (acc ++ [e_id m]). split_and!; [done| |].
          * intros x [Hx|Hx]%elem_of_app; [by left|]. apply elem_of_list_singleton in Hx. subst x. right.
            split; [|done]. apply Hids. by left.
          * intros Hs Hnn Hnd Ha. apply NoDup_app. split_and!; [done| |apply NoDup_singleton].
            intros x Hx Hx'. apply elem_of_list_singleton in Hx'. subst x. apply Hd, Ha; [done|]. apply Hids. by left.
        + destruct (mark_ok g thr (e_id m) h1 del) as (del' & Em & Hsub & Hmk); [done..|]. rewrite Em. cbn [mbind out_bind].
          destruct (IH h1 del' (acc ++ [e_id m])) as (ns & E' & H1 & H2); [done|lia|]. exists ns. split_and!; [done| |].
          * intros x Hx. destruct (H1 x Hx) as [[Hx'|Hx']%elem_of_app|[Hx' Hx2]]; [by left| |].
            -- apply elem_of_list_singleton in Hx'. subst x. right. split; [|done]. apply Hids. by left.
            -- right. split; [apply Hids; by right|]. set_solver.
          * intros Hs Hnn Hnd Ha. apply H2; [done|auto| |].
            -- apply NoDup_app. split_and!; [done| |apply NoDup_singleton].
               intros x Hx Hx'. apply elem_of_list_singleton in Hx'. subst x. apply Hd, Ha; [done|]. apply Hids. by left.
            -- intros x [Hx|Hx]%elem_of_app Hx'.
               ++ apply Hsub, Ha; [done|]. apply Hids. by right.
               ++ apply elem_of_list_singleton in Hx. subst x. by apply Hmk; auto.
    Qed.

    Lemma robust_prune_ok mi i v cs thr :
      uniform dim (mi_graph mi) -> closed (mi_graph mi) -> mi_graph mi !! i = Some v ->
      Forall (fun e => e_id e ∈ dom (mi_graph mi)) cs ->
      exists ns, robust_prune dist mi v cs thr = Val ns /\
        (forall x, x ∈ ns -> x ∈ dom (mi_graph mi) /\ x <> i /\ (x ∈ e_id <$> cs \/ x ∈ dv_nbrs v)) /\
        (sane thr (mi_graph mi) -> Forall (fun e => nonneg (e_dist e)) cs -> NoDup ns).
    Proof using Htot.
      intros Hu Hc Hv Hcs. unfold robust_prune. destruct (Hu _ _ Hv) as [Hid Hlen].
      destruct (nbr_elems_ok (mi_graph mi) (dv_vec v) (dv_nbrs v)) as (es & E & Hes & Hd); [done|done|by eapply Hc|].
      rewrite E. cbn [mbind out_bind].
      assert (new_min_heap (cs ++ es) ≡ₚ cs ++ es) as Hp by apply heap_init_perm.
      assert (Forall (fun e => e_id e ∈ dom (mi_graph mi)) (cs ++ es)) as Hall.
      { apply Forall_app. split; [done|]. eapply Forall_impl; [exact Hd|]. intros e (w & Hw & _). apply elem_of_dom. by eexists. }
      destruct (prune_ok (length (cs ++ es)) (mi_graph mi) thr (length (dv_nbrs v)) (mi_deg mi)
        (new_min_heap (cs ++ es)) {[dv_id v]} []) as (ns & E' & H1 & H2); [done|by rewrite Hp|by rewrite Hp|].
      exists ns. split_and!; [done| |].
      - intros x Hx. destruct (H1 x Hx) as [Hx'|[Hx' Hne]]; [by inversion Hx'|].
        rewrite Hp in Hx'. split_and!.
        + apply elem_of_list_fmap in Hx' as (e & -> & He). rewrite Forall_forall in Hall. by apply Hall.
        + rewrite Hid in Hne. set_solver.
        + rewrite fmap_app, Hes in Hx'. by apply elem_of_app in Hx'.
      - intros Hs Hnn. apply H2; [done| |constructor|intros x Hx; by inversion Hx].
        rewrite Hp. apply Forall_app. split; [done|]. eapply Forall_impl; [exact Hd|].
        intros e (w & Hw & Hdw). by destruct (Hs _ _ _ _ _ Hv Hw Hdw).
    Qed.

    Definition same_params (mi mi' : mindex) : Prop :=
      mi_s mi' = mi_s mi /\ mi_dim mi' = mi_dim mi /\ mi_deg mi' = mi_deg mi /\ mi_first mi' = mi_first mi /\
      mi_once mi' = mi_once mi /\ mi_ro mi' = mi_ro mi /\ mi_size mi' = mi_size mi.

    Lemma closed_set g i v ns : closed g -> g !! i = Some v -> Forall (fun n => n ∈ dom g) ns ->
      closed (<[i := DVertex (dv_id v) (dv_obj v) ns (dv_vec v)]> g).
    Proof using Type.
      clear dist Htot deleted. intros Hc Hv Hns j w. assert (dom (<[i := DVertex (dv_id v) (dv_obj v) ns (dv_vec v)]> g) = dom g) as ->.
      { rewrite dom_insert_L. apply elem_of_dom_2 in Hv. set_solver. }
      rewrite lookup_insert_Some. intros [[_ <-]|[_ Hw]]; [done|by eapply Hc].
    Qed.
    Lemma simple_set g i v ns : simple g -> g !! i = Some v -> NoDup ns -> i ∉ ns ->
      simple (<[i := DVertex (dv_id v) (dv_obj v) ns (dv_vec v)]> g).
    Proof using Type.
      clear dist Htot deleted. intros Hs Hv Hns Hi j w. rewrite lookup_insert_Some. intros [[<- <-]|[_ Hw]]; [done|by eapply Hs].
    Qed.

    Lemma link_back_ok mi id thr ns :
      uniform dim (mi_graph mi) -> closed (mi_graph mi) -> id ∈ dom (mi_graph mi) ->
      Forall (fun n => n ∈ dom (mi_graph mi)) ns ->
      exists mi', link_back dist mi id thr ns = Val mi' /\ same_params mi mi' /\
        skel (mi_graph mi') = skel (mi_graph mi) /\ closed (mi_graph mi') /\
        (sane thr (mi_graph mi) -> simple (mi_graph mi) -> NoDup ns -> id ∉ ns ->
         (forall i v, mi_graph mi !! i = Some v -> i ∈ ns -> id ∉ dv_nbrs v) -> simple (mi_graph mi')).
    Proof using Htot.
      revert mi. induction ns as [|n ns IH]; intros mi Hu Hc Hid Hns; cbn [link_back].
      { exists mi. split; [done|]. split; [by unfold same_params|]. split_and!; auto. }
      inversion_clear Hns as [|?? Hn Hns']. apply elem_of_dom in Hn as [nb Hnb]. rewrite Hnb. cbn [or_pan mbind out_bind].
      set (nb1 := DVertex _ _ _ _). set (g1 := <[n := nb1]> (mi_graph mi)).
      assert (skel g1 = skel (mi_graph mi)) as Hs1 by (by apply skel_set).
      assert (dom g1 = dom (mi_graph mi)) as Hd1 by (by rewrite <- !skel_dom, Hs1).
      assert (uniform dim g1) as Hu1 by (by eapply uniform_skel).
      assert (closed g1) as Hc1.
      { apply closed_set; [done|done|]. apply Forall_app. split; [by eapply Hc|by constructor]. }
      assert (g1 !! n = Some nb1) as Hn1 by (by unfold g1; rewrite lookup_insert).
      assert (forall thr, sane thr (mi_graph mi) -> sane thr g1) as Hsn1 by (intros; by eapply sane_skel).
      assert (forall i v, g1 !! i = Some v -> i <> n -> mi_graph mi !! i = Some v) as Hoth.
      { intros i v H Hne. unfold g1 in H. by rewrite lookup_insert_ne in H. }
      destruct (N.ltb_spec (mi_deg mi) (N.of_nat (length (dv_nbrs nb1)))) as [Hlt|Hge].
      - cbn [mi_graph set_graph].
        destruct (nbr_elems_rev_ok g1 (dv_vec nb1) (dv_nbrs nb1)) as (ds & Eds & Hids & Hds);
          [done|by apply (Hu1 _ _ Hn1)|by eapply Hc1|].
        rewrite Eds. cbn [mbind out_bind].
        destruct (robust_prune_ok (set_graph g1 mi) n nb1 ds thr) as (ns2 & E2 & H2 & H2'); [done..| |].
        { eapply Forall_impl; [exact Hds|]. intros e (w & Hw & _). cbn [mi_graph set_graph]. apply elem_of_dom. by eexists. }
        rewrite E2. cbn [mbind out_bind]. cbn [mi_graph set_graph] in *.
        set (g2 := <[n := DVertex (dv_id nb) (dv_obj nb) ns2 (dv_vec nb)]> g1).
        assert (skel g2 = skel (mi_graph mi)) as Hs2.
        { rewrite <- Hs1. by apply (skel_set g1 n nb1 ns2). }
        assert (dom g2 = dom (mi_graph mi)) as Hd2 by (by rewrite <- !skel_dom, Hs2).
        destruct (IH (set_graph g2 (set_graph g1 mi))) as (mi' & E' & Hp' & Hsk' & Hc' & Hsi'); cbn [mi_graph set_graph].
        + by eapply uniform_skel.
        + apply (closed_set g1 n nb1); [done|done|]. apply Forall_forall. intros x Hx. by apply H2.
        + by rewrite Hd2.
        + by rewrite Hd2.
        + cbn [mi_graph set_graph] in *. exists mi'. split; [exact E'|]. split; [exact Hp'|].
          split; [by rewrite Hsk', Hs2|]. split; [done|].
          intros Hsa Hsi Hnd Hni Hnew. apply NoDup_cons in Hnd as [Hnn Hnd].
          assert (NoDup ns2) as Hnd2.
          { apply H2'; [by apply Hsn1|]. eapply Forall_impl; [exact Hds|]. intros e (w & Hw & Hdw).
            apply Hsn1 in Hsa. by eapply (Hsa _ _ _ _ _ Hw Hn1 Hdw). }
          apply Hsi'; [by eapply sane_skel| |done|set_solver|].
          * intros j w. unfold g2. rewrite lookup_insert_Some. intros [[<- <-]|[Hne Hw]].
            -- cbn [dv_nbrs]. split; [done|]. intros Hx. by destruct (H2 _ Hx) as (_ & ? & _).
            -- apply Hsi. by apply Hoth.
          * intros j w Hw Hj. apply (Hnew j); [|by right].
            assert (j <> n) by (by intros ->). unfold g2 in Hw. rewrite lookup_insert_ne in Hw by done. by apply Hoth.
      - destruct (IH (set_graph g1 mi)) as (mi' & E' & Hp' & Hsk' & Hc' & Hsi'); cbn [mi_graph set_graph].
        + done.
        + done.
        + by rewrite Hd1.
        + by rewrite Hd1.
        + cbn [mi_graph set_graph] in *. exists mi'. split; [exact E'|]. split; [exact Hp'|].
          split; [by rewrite Hsk', Hs1|]. split; [done|].
          intros Hsa Hsi Hnd Hni Hnew. apply NoDup_cons in Hnd as [Hnn Hnd].
          destruct (Hsi _ _ Hnb) as [Hnb1 Hnb2].
          apply Hsi'; [by eapply sane_skel| |done|set_solver|].
          * apply simple_set; [done|done| |].
            -- apply NoDup_app. split_and!; [done| |apply NoDup_singleton]. intros x Hx Hx'.
               apply elem_of_list_singleton in Hx'. subst x. by apply (Hnew n nb); [|left|].
            -- intros [Hx|Hx]%elem_of_app; [done|]. apply elem_of_list_singleton in Hx. subst n. apply Hni. by left.
          * intros j w Hw Hj. apply (Hnew j); [|by right]. apply Hoth; [done|]. by intros ->.
    Qed.
  End prune.

  (** ** Whole calls *)
  Lemma mvisit_ok fuel mi q L : closed (mi_graph mi) -> measurable (mi_graph mi) q -> mi_s mi ∈ dom (mi_graph mi) ->
    1 + work ∅ (mi_graph mi) <= fuel ->
    exists cs vis, mvisit dist deleted fuel mi q L = Val cs /\ collected (mi_graph mi) q (mi_s mi) vis cs.
  Proof.
    intros Hc Hm [sv Hs]%elem_of_dom Hf. unfold mvisit. rewrite Hs. cbn [or_pan mbind out_bind].
    destruct (Hm _ _ Hs) as [d Hd]. rewrite Hd. cbn [mbind out_bind].
    apply (loop_ok (mi_graph mi) q (mi_s mi)); [done|done| | |done].
    - change (new_mm_heap _) with [Elem (mi_s mi) d]. constructor; [split; [constructor|by exists sv]|constructor].
    - split; constructor.
  Qed.

  Lemma mvisit_complete fuel mi q L :
    (forall i j, i ∈ dom (mi_graph mi) -> j ∈ dom (mi_graph mi) -> u32 i = u32 j -> i = j) ->
    closed (mi_graph mi) -> measurable (mi_graph mi) q -> mi_s mi ∈ dom (mi_graph mi) ->
    1 + work ∅ (mi_graph mi) <= fuel -> 1 + work ∅ (mi_graph mi) <= L ->
    exists cs, mvisit dist deleted fuel mi q L = Val cs /\
      forall i v, reach (mi_graph mi) (mi_s mi) i -> mi_graph mi !! i = Some v -> dv_obj v ∉ deleted -> i ∈ e_id <$> cs.
  Proof.
    intros Hinj Hc Hm [sv Hs]%elem_of_dom Hf HL. unfold mvisit. rewrite Hs. cbn [or_pan mbind out_bind].
    destruct (Hm _ _ Hs) as [d Hd]. rewrite Hd. cbn [mbind out_bind].
    change (new_mm_heap _) with [Elem (mi_s mi) d].
    destruct (loop_complete (mi_graph mi) q (mi_s mi) fuel L [Elem (mi_s mi) d] ∅ []) as (cs & vis & E & Hdone & _ & Hin);
      [done|done|done| | |done|done|].
    - constructor; [split; [constructor|by exists sv]|constructor].
    - intros i v _ Hi. set_solver.
    - exists cs. split; [done|]. intros i v Hr Hi Hnd.
      assert (u32 i ∈ vis) as Hv.
      { clear v Hi Hnd. induction Hr as [|i v n Hr IH Hi Hn]; [apply Hin; by left|].
        by eapply Hdone. }
      by eapply Hdone.
  Qed.

  Definition wfm (mi : mindex) : Prop :=
    uniform (mi_dim mi) (mi_graph mi) /\ closed (mi_graph mi) /\
    (if mi_once mi then mi_s mi ∈ dom (mi_graph mi) else mi_graph mi = ∅ /\ mi_s mi = 0%N).

  Lemma measurable_ok mi q : dist_total (mi_dim mi) -> uniform (mi_dim mi) (mi_graph mi) ->
    N.of_nat (length q) = mi_dim mi -> measurable (mi_graph mi) q.
  Proof. intros Ht Hu Hq i v Hv. apply Ht; [by apply (Hu _ _ Hv)|done]. Qed.

  Lemma minsert_ok fuel mi v L thr id :
    dist_total (mi_dim mi) -> wfm mi -> mi_ro mi = false -> N.of_nat (length v) = mi_dim mi ->
    1 + work ∅ (<[id := DVertex id 0 [] v]> (mi_graph mi)) <= fuel ->
    exists mi', minsert dist deleted fuel mi v L thr id = Val mi' /\ wfm mi' /\
      skel (mi_graph mi') = <[id := (id, 0%N, v)]> (skel (mi_graph mi)) /\
      mi_dim mi' = mi_dim mi /\ mi_deg mi' = mi_deg mi /\ mi_first mi' = mi_first mi /\ mi_ro mi' = false /\
      mi_once mi' = true /\
      (sane thr (mi_graph mi') -> simple (mi_graph mi) -> id ∉ dom (mi_graph mi) -> simple (mi_graph mi')).
  Proof.
    intros Ht (Hu & Hc & Hs) Hro Hlen Hf. unfold minsert. rewrite Hro, Hlen, N.eqb_refl. cbn [negb].
    set (g1 := <[id := DVertex id 0 [] v]> (mi_graph mi)) in *.
    assert (skel g1 = <[id := (id, 0%N, v)]> (skel (mi_graph mi))) as Hsk1 by (unfold skel, g1; by rewrite fmap_insert).
    assert (uniform (mi_dim mi) g1) as Hu1.
    { intros i w. unfold g1. rewrite lookup_insert_Some. intros [[<- <-]|[_ Hw]]; [done|by apply Hu]. }
    assert (dom g1 = {[id]} ∪ dom (mi_graph mi)) as Hdom by apply dom_insert_L.
    assert (closed g1) as Hc1.
    { intros i w. rewrite Hdom. unfold g1. rewrite lookup_insert_Some. intros [[<- <-]|[_ Hw]]; [constructor|].
      eapply Forall_impl; [by eapply Hc|]. set_solver. }
    assert (simple (mi_graph mi) -> simple g1) as Hsi1.
    { intros H i w. unfold g1. rewrite lookup_insert_Some. intros [[<- <-]|[_ Hw]]; [|by eapply H].
      cbn [dv_nbrs]. split; [constructor|]. set_solver. }
    set (s := if mi_once mi then _ else _).
    assert (s ∈ dom g1) as Hs1.
    { rewrite Hdom. unfold s. destruct (mi_once mi); [set_solver|]. destruct Hs as [_ ->]. cbn. set_solver. }
    set (mi1 := MIndex g1 s _ _ _ _ _ _).
    destruct (negb (mi_once mi) && (mi_count mi =? 0)%N) eqn:Efirst.
    { exists mi1. split_and!; try done. auto. }
    destruct (mvisit_ok fuel mi1 v L) as (cs & vis & Ev & Hcol); [done| |done|done|].
    { by apply measurable_ok. }
    change (mi_graph mi1) with g1 in *.
    rewrite Ev. cbn [mbind out_bind]. destruct Hcol as [_ Hcol].
    assert (g1 !! id = Some (DVertex id 0 [] v)) as Hid1 by (unfold g1; by rewrite lookup_insert).
    destruct (robust_prune_ok (mi_dim mi) Ht mi1 id (DVertex id 0 [] v) cs thr) as (ns & Ens & Hns & Hnd); [done..| |].
    { eapply Forall_impl; [exact Hcol|]. intros e (_ & (_ & w & Hw & _) & _). apply elem_of_dom. by eexists. }
    rewrite Ens. cbn [mbind out_bind]. change (mi_graph mi1) with g1 in *.
    set (g2 := <[id := DVertex id 0 ns v]> g1).
    assert (skel g2 = skel g1) as Hsk2 by (by apply (skel_set g1 id (DVertex id 0 [] v) ns)).
    assert (dom g2 = dom g1) as Hd2 by (by rewrite <- !skel_dom, Hsk2).
    assert (Forall (fun n => n ∈ dom g1) ns) as Hns'.
    { apply Forall_forall. intros x Hx. by apply Hns. }
    destruct (link_back_ok (mi_dim mi) Ht (set_graph g2 mi1) id thr ns) as (mi' & E' & Hp & Hsk' & Hc' & Hsi');
      cbn [mi_graph set_graph].
    - by eapply uniform_skel.
    - by apply (closed_set g1 id (DVertex id 0 [] v)).
    - rewrite Hd2. apply elem_of_dom. by eexists.
    - by rewrite Hd2.
    - cbn [mi_graph set_graph] in *. destruct Hp as (P1 & P2 & P3 & P4 & P5 & P6 & _).
      unfold mi1 in P1, P2, P3, P4, P5, P6. cbn [set_graph mi_s mi_dim mi_deg mi_first mi_once mi_ro] in *.
      assert (skel (mi_graph mi') = skel g1) as Hsk by (by rewrite Hsk', Hsk2).
      exists mi'. split; [exact E'|]. split.
      { split; [|split; [done|]].
        - rewrite P2. by eapply uniform_skel.
        - rewrite P5, P1. by rewrite <- skel_dom, Hsk, skel_dom. }
      split; [by rewrite Hsk|]. split_and!; try done; try congruence.
      intros Hsa Hsi Hfresh.
      assert (sane thr g1) as Hsa1 by (by eapply sane_skel; [symmetry|]).
      assert (NoDup ns) as Hnd'.
      { apply Hnd; [done|]. eapply Forall_impl; [exact Hcol|]. intros e (_ & (_ & w & Hw & Hdw) & _).
        by destruct (Hsa1 _ _ _ _ _ Hw Hid1 Hdw). }
      assert (id ∉ ns) as Hni by (intros Hx; by destruct (Hns _ Hx) as (_ & ? & _)).
      apply Hsi'; [by eapply sane_skel| |done|done|].
      + apply (simple_set g1 id (DVertex id 0 [] v)); auto.
      + intros i w Hw Hi Hx. assert (i <> id) by (by intros ->). unfold g2, g1 in Hw.
        rewrite !lookup_insert_ne in Hw by done. apply Hc in Hw. rewrite Forall_forall in Hw. by apply Hfresh, Hw.
  Qed.

  (** ** More fuel changes nothing *)
  Lemma loop_mono fuel fuel' g q L h vis acc r : fuel <= fuel' ->
    msearch_loop dist deleted fuel g q L h vis acc = Val r -> msearch_loop dist deleted fuel' g q L h vis acc = Val r.
  Proof.
    intros Hle. revert fuel' Hle h vis acc. induction fuel as [|fuel IH]; intros fuel' Hle h vis acc.
    { destruct h; [|done]. by destruct fuel'. }
    destruct fuel' as [|fuel']; [lia|]. cbn [msearch_loop]. destruct h as [|a h0]; [done|].
    destruct (mm_pop min_less (a :: h0)) as [[m h1]|?|?]; [|done..]. cbn [mbind out_bind].
    case_bool_decide; [apply IH; lia|].
    destruct (g !! e_id m) as [v|]; [|done]. cbn [or_pan mbind out_bind].
    destruct (push_nbrs dist g q (dv_nbrs v) h1 L) as [h2|?|?]; [|done..]. cbn [mbind out_bind]. apply IH. lia.
  Qed.
  Lemma mvisit_mono fuel fuel' mi q L r : fuel <= fuel' ->
    mvisit dist deleted fuel mi q L = Val r -> mvisit dist deleted fuel' mi q L = Val r.
  Proof.
    intros Hle. unfold mvisit. destruct (mi_graph mi !! mi_s mi) as [sv|]; [|done]. cbn [or_pan mbind out_bind].
    destruct (dist (dv_vec sv) q) as [d|?|?]; [|done..]. cbn [mbind out_bind]. by apply loop_mono.
  Qed.
  Lemma minsert_mono fuel fuel' mi v L thr id r : fuel <= fuel' ->
    minsert dist deleted fuel mi v L thr id = Val r -> minsert dist deleted fuel' mi v L thr id = Val r.
  Proof.
    intros Hle. unfold minsert. destruct (mi_ro mi); [done|]. destruct (negb _); [done|].
    set (mi1 := MIndex _ _ _ _ _ _ _ _). destruct (_ && _); [done|].
    destruct (mvisit dist deleted fuel mi1 v L) as [cs|?|?] eqn:E; [|done..].
    by rewrite (mvisit_mono fuel fuel' _ _ _ _ Hle E).
  Qed.
End mem.
