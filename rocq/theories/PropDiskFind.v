(** Properties of Search and Delete of DiskAnn and of a new index: C74, C75, C77. *)
From Verif Require Import GoBase FloatModel HeapModel MMHeapModel DiskAnnModel DiskTopModel.
From Verif Require Import ProofBase FloatProofs HeapProofs MMHeapProofs PropMMHeap CodecProofs PropFloat DiskAnnProofs DiskAnnCodec PropDiskAnn DiskTopProofs PropDiskTop.
From Coq Require Import SpecFloat Sorted.
Open Scope nat_scope.

(** ** C74 Delete removes the object it names and nothing else *)
(** [found s res obj]: one of the results is a vector inserted for [obj]. *)
Definition found (s : dsys) (res : list elem) (obj : N) : Prop :=
  exists e i cl p, e ∈ res /\ ds_calls s !! i = Some cl /\ ic_pc cl = IRet (e_id e) p (Val tt) /\ ic_obj cl = obj.

(** False for the code: the object id is not stored, so the vector of a deleted
    object is still found ... *)
Theorem C74_deleted_is_gone_refuted :
  exists evs obj s q k res, reached (cfg1 5) (evs ++ [EvDelete obj]) s /\
    da_search (cfg1 5) 20 (ds_da s) q k = Val res /\ found s res obj.
Proof.
  exists (seq_evs 0 [SIns (f1 0) 7]), 7%N.
  destruct (reached_witness (cfg1 5) 20 (seq_evs 0 [SIns (f1 0) 7] ++ [EvDelete 7]) (fun s =>
    da_search (cfg1 5) 20 (ds_da s) (f1 0) 1 = Val [Elem 1 fzero] /\
    ds_calls s !! 0 = Some (ICall (f1 0) 7 (IRet 1 0 (Val tt))))) as (s & Hr & Hs & Hc).
  { by vm_compute. }
  { vm_compute. split; reflexivity. }
  exists s, (f1 0), 1, [Elem 1 fzero]. split; [exact Hr|]. split; [exact Hs|].
  eexists _, 0, _, 0. split; [by left|]. split; [exact Hc|]. split; reflexivity.
Qed.
Print Assumptions C74_deleted_is_gone_refuted.

(** ... while deleting object 0 hides the vectors of all others. *)
Theorem C74_others_stay_refuted :
  exists evs obj obj' s q k res res', obj <> obj' /\ reached (cfg1 5) evs s /\
    da_search (cfg1 5) 20 (ds_da s) q k = Val res /\ found s res obj /\
    da_search (cfg1 5) 20 (da_delete (ds_da s) obj') q k = Val res' /\ ~ found s res' obj.
Proof.
  exists (seq_evs 0 [SIns (f1 0) 7]), 7%N, 0%N.
  destruct (reached_witness (cfg1 5) 20 (seq_evs 0 [SIns (f1 0) 7]) (fun s =>
    da_search (cfg1 5) 20 (ds_da s) (f1 0) 1 = Val [Elem 1 fzero] /\
    da_search (cfg1 5) 20 (da_delete (ds_da s) 0) (f1 0) 1 = Val [] /\
    ds_calls s !! 0 = Some (ICall (f1 0) 7 (IRet 1 0 (Val tt))))) as (s & Hr & Hs & Hd & Hc).
  { by vm_compute. }
  { vm_compute. split; [|split]; reflexivity. }
  exists s, (f1 0), 1, [Elem 1 fzero], []. split; [discriminate|]. split; [exact Hr|]. split; [exact Hs|]. split.
  { eexists _, 0, _, 0. split; [by left|]. split; [exact Hc|]. split; reflexivity. }
  split; [exact Hd|]. intros (e & i & cl & p & He & _). by apply elem_of_nil in He.
Qed.
Print Assumptions C74_others_stay_refuted.

Lemma loop_del dist d1 d2 g q L : (forall i v, g !! i = Some v -> (dv_obj v ∈ d1 <-> dv_obj v ∈ d2)) ->
  forall fuel h vis acc, msearch_loop dist d1 fuel g q L h vis acc = msearch_loop dist d2 fuel g q L h vis acc.
Proof.
  intros Hd. induction fuel as [|fuel IH]; intros h vis acc; [done|]. cbn [msearch_loop]. destruct h as [|x h]; [done|].
  destruct (mm_pop min_less (x :: h)) as [[m h']|?|?]; [|done..]. cbn [mbind out_bind].
  destruct (bool_decide _); [apply IH|]. destruct (g !! e_id m) as [v|] eqn:Ev; [|done]. cbn [or_pan mbind out_bind].
  rewrite (bool_decide_ext _ _ (Hd _ _ Ev)). destruct (push_nbrs _ _ _ _ _ _); [|done..]. cbn [mbind out_bind]. apply IH.
Qed.
Lemma loop_del_all dist d g q L : (forall i v, g !! i = Some v -> dv_obj v ∈ d) ->
  forall fuel h vis acc r, msearch_loop dist d fuel g q L h vis acc = Val r -> r = acc.
Proof.
  intros Hd. induction fuel as [|fuel IH]; intros h vis acc r E; cbn [msearch_loop] in E; destruct h as [|x h]; [congruence|done|congruence|].
  destruct (mm_pop min_less (x :: h)) as [[m h']|?|?]; [|done..]. cbn [mbind out_bind] in E.
  destruct (bool_decide _); [by eapply IH|]. destruct (g !! e_id m) as [v|] eqn:Ev; [|done]. cbn [or_pan mbind out_bind] in E.
  destruct (push_nbrs _ _ _ _ _ _); [|done..]. cbn [mbind out_bind] in E.
  rewrite (bool_decide_true (dv_obj v ∈ d)) in E by (by eapply Hd). by eapply IH.
Qed.

(** the object id of every stored vertex is 0 *)
Lemma objs_zero c s p mi i v : DInv c s -> da_mem (ds_da s) !! p = Some mi -> mi_graph mi !! i = Some v -> dv_obj v = 0%N.
Proof.
  intros H Em Ev. apply skel_lookup in Ev. apply (di_stored c s H p mi i _ Em) in Ev as (j & cl & _ & _ & E). congruence.
Qed.

Lemma msearch_del dist d1 d2 fuel mi q k L : (forall i v, mi_graph mi !! i = Some v -> (dv_obj v ∈ d1 <-> dv_obj v ∈ d2)) ->
  msearch dist d1 fuel mi q k L = msearch dist d2 fuel mi q k L.
Proof.
  intros Hd. unfold msearch, mvisit. destruct (mi_graph mi !! mi_s mi) as [sv|]; [|done]. cbn [or_pan mbind out_bind].
  destruct (dist (dv_vec sv) q); [|done..]. cbn [mbind out_bind]. by rewrite (loop_del dist d1 d2) by done.
Qed.
Lemma msearch_del_all dist d fuel mi q k L r : (forall i v, mi_graph mi !! i = Some v -> dv_obj v ∈ d) ->
  msearch dist d fuel mi q k L = Val r -> r = [].
Proof.
  intros Hd E. unfold msearch, mvisit in E. destruct (mi_graph mi !! mi_s mi) as [sv|]; [|done]. cbn [or_pan mbind out_bind] in E.
  destruct (dist (dv_vec sv) q) as [d0|?|?]; [|done..]. cbn [mbind out_bind] in E.
  destruct (msearch_loop _ _ _ _ _ _ _ _ _) as [cs|?|?] eqn:El; [|done..]. apply loop_del_all in El; [|done]. subst cs. cbn [mbind out_bind] in E.
  change (pop_k k [] = Val r) in E. destruct k; cbn in E; congruence.
Qed.

(** What holds: deleting an object other than 0 changes no search at all, so the
    others are found as before; and after deleting object 0 no search returns
    anything. *)
Theorem C74_delete_partial :
  forall c evs s obj, proper c -> reached c evs s ->
    (obj <> 0%N -> forall fuel q k, da_search c fuel (da_delete (ds_da s) obj) q k = da_search c fuel (ds_da s) q k) /\
    (obj = 0%N -> forall fuel q k res, da_search c fuel (da_delete (ds_da s) obj) q k = Val res -> res = []).
Proof.
  intros c evs s obj Ht Hr. apply reached_inv in Hr as H; [|done]. split.
  - intros Hne fuel q k. unfold da_search. cbn [da_delete da_mem da_rw da_ro da_del].
    assert (forall p mi, da_mem (ds_da s) !! p = Some mi ->
      msearch (dc_fn c) ({[obj]} ∪ da_del (ds_da s)) fuel mi q k (dc_list c) = msearch (dc_fn c) (da_del (ds_da s)) fuel mi q k (dc_list c)) as Hm.
    { intros p mi Em. apply msearch_del. intros i v Ev. rewrite (objs_zero c s p mi i v H Em Ev). set_solver. }
    destruct (da_mem (ds_da s) !! da_rw (ds_da s)) as [mi|] eqn:Em; [|done]. cbn [or_pan mbind out_bind]. rewrite (Hm _ _ Em).
    destruct (msearch _ _ _ _ _ _ _) as [es|?|?]; [|done..]. cbn [mbind out_bind].
    assert (forall ros, search_ros c fuel (da_delete (ds_da s) obj) q k ros = search_ros c fuel (ds_da s) q k ros) as ->; [|done].
    induction ros as [|p ros IH]; [done|]. cbn [search_ros da_delete da_mem da_del].
    destruct (da_mem (ds_da s) !! p) as [mi'|] eqn:Em'; [|done]. cbn [or_pan mbind out_bind]. rewrite (Hm _ _ Em').
    destruct (msearch _ _ _ _ _ _ _) as [es'|?|?]; [|done..]. cbn [mbind out_bind]. change (DAnn _ _ _ _ _ _ _ _) with (da_delete (ds_da s) obj). by rewrite IH.
  - intros -> fuel q k res. unfold da_search. cbn [da_delete da_mem da_rw da_ro da_del].
    assert (forall p mi r, da_mem (ds_da s) !! p = Some mi ->
      msearch (dc_fn c) ({[0%N]} ∪ da_del (ds_da s)) fuel mi q k (dc_list c) = Val r -> r = []) as Hm.
    { intros p mi r Em. apply msearch_del_all. intros i v Ev. rewrite (objs_zero c s p mi i v H Em Ev). set_solver. }
    assert (forall ros r, search_ros c fuel (da_delete (ds_da s) 0) q k ros = Val r -> r = []) as Hros.
    { induction ros as [|p ros IH]; intros r E; [cbn in E; congruence|]. cbn [search_ros da_delete da_mem da_del] in E.
      destruct (da_mem (ds_da s) !! p) as [mi'|] eqn:Em'; [|done]. cbn [or_pan mbind out_bind] in E.
      destruct (msearch _ _ _ _ _ _ _) as [es'|?|?] eqn:Es'; [|done..]. cbn [mbind out_bind] in E. rewrite (Hm _ _ _ Em' Es') in E.
      change (DAnn _ _ _ _ _ _ _ _) with (da_delete (ds_da s) 0) in E.
      destruct (search_ros _ _ _ _ _ _) as [r'|?|?] eqn:Er; [|done..]. cbn [mbind out_bind app] in E. apply Val_inj in E as <-. by apply IH. }
    destruct (da_mem (ds_da s) !! da_rw (ds_da s)) as [mi|] eqn:Em; [|done]. cbn [or_pan mbind out_bind].
    destruct (msearch _ _ _ _ _ _ _) as [es|?|?] eqn:Es; [|done..]. cbn [mbind out_bind]. rewrite (Hm _ _ _ Em Es).
    change (DAnn _ _ _ _ _ _ _ _) with (da_delete (ds_da s) 0).
    destruct (search_ros _ _ _ _ _ _) as [r'|?|?] eqn:Er; [|done..]. apply Hros in Er as ->. cbn. intros E. by apply Val_inj in E as <-.
Qed.
Print Assumptions C74_delete_partial.

Example C74_case :
  match drun (cfg1 2) 20 (dinit (cfg1 2)) (seq_evs 0 five) with
  | Val s =>
      (e_id <$> match da_search (cfg1 2) 20 (da_delete (ds_da s) 3) (f1 1073741824) 2 with Val r => r | _ => [] end) = [5; 3]%N /\
      da_search (cfg1 2) 20 (da_delete (ds_da s) 0) (f1 1073741824) 2 = Val []
  | _ => False
  end.
Proof. vm_compute. split; reflexivity. Qed.

(** ** C75 Search answers from all memory indexes *)
(** Two points at 2 and 1, limit 1: the query is 0. *)
Definition two : list sop := [SIns (f1 1065353216) 1; SIns (f1 1073741824) 2].

(** False for the code: the merged results start with those of the newest index,
    and Init of the min-max heap skips its root, so PopMax may drop the nearest. *)
Theorem C75_nearest_refuted :
  exists ops s q k res e i cl p d, reached (cfg1 1) (seq_evs 0 ops) s /\
    da_search (cfg1 1) 20 (ds_da s) q k = Val res /\ k = length res /\ e ∈ res /\
    ds_calls s !! i = Some cl /\ ic_pc cl = IRet p (N.to_nat (p - 1)) (Val tt) /\ p ∉ e_id <$> res /\
    euclidean (ic_vec cl) q = Val d /\ SFltb d (e_dist e) = true.
Proof.
  exists two.
  destruct (reached_witness (cfg1 1) 20 (seq_evs 0 two) (fun s =>
    da_search (cfg1 1) 20 (ds_da s) (f1 0) 1 = Val [Elem 2 (f32_val 1073741824%N)] /\
    ds_calls s !! 0 = Some (ICall (f1 1065353216) 1 (IRet 1 0 (Val tt))))) as (s & Hr & Hs & Hc).
  { by vm_compute. }
  { vm_compute. split; reflexivity. }
  eexists s, (f1 0), 1, [Elem 2 (f32_val 1073741824%N)], (Elem 2 (f32_val 1073741824%N)), 0, (ICall (f1 1065353216) 1 (IRet 1 0 (Val tt))), 1%N, (f32_val 1065353216%N).
  split; [exact Hr|]. split; [exact Hs|]. split; [reflexivity|]. split; [by left|].
  split; [exact Hc|]. split; [reflexivity|]. split; [|split; vm_compute; reflexivity].
  intros Hin. cbn in Hin. apply elem_of_list_singleton in Hin. discriminate.
Qed.
Print Assumptions C75_nearest_refuted.

(** Nor are the results distinct while an insert is between lines 61 and 62: the
    index being closed is searched twice. *)
Definition twice_evs : list dev := one_insert 0 (f1 0) 7 ++ [EvCall (f1 1065353216) 8; EvStep 1; EvStep 1].
Theorem C75_distinct_refuted :
  exists evs s q k res, reached (cfg1 1) evs s /\ da_search (cfg1 1) 20 (ds_da s) q k = Val res /\ ~ NoDup (e_id <$> res).
Proof.
  exists twice_evs.
  destruct (reached_witness (cfg1 1) 20 twice_evs (fun s =>
    da_search (cfg1 1) 20 (ds_da s) (f1 0) 2 = Val [Elem 1 fzero; Elem 1 fzero])) as (s & Hr & Hs).
  { by vm_compute. }
  { vm_compute. reflexivity. }
  eexists s, (f1 0), 2, _. split; [exact Hr|]. split; [exact Hs|].
  intros Hn. cbn in Hn. apply NoDup_cons in Hn as [Hn _]. apply Hn. by left.
Qed.
Print Assumptions C75_distinct_refuted.

(** And a rejected vector can make every search panic: the insert has started a
    new index and leaves it empty. *)
Theorem C75_search_answers_refuted :
  exists ops s, reached (cfg1 1) (seq_evs 0 ops) s /\ (forall fuel q k, da_search (cfg1 1) fuel (ds_da s) q k = Pan PNil).
Proof.
  exists [SIns (f1 0) 7; SIns [] 8].
  destruct (reached_witness (cfg1 1) 20 (seq_evs 0 [SIns (f1 0) 7; SIns [] 8]) (fun s =>
    match da_mem (ds_da s) !! da_rw (ds_da s) with
    | Some mi => match mi_graph mi !! mi_s mi with Some _ => false | None => true end
    | None => false
    end = true)) as (s & Hr & Hs).
  { by vm_compute. }
  { vm_compute. reflexivity. }
  exists s. split; [exact Hr|]. intros fuel q k. unfold da_search.
  destruct (da_mem (ds_da s) !! da_rw (ds_da s)) as [mi|]; [|discriminate]. cbn [or_pan mbind out_bind].
  unfold msearch, mvisit. destruct (mi_graph mi !! mi_s mi); [discriminate|reflexivity].
Qed.
Print Assumptions C75_search_answers_refuted.

(** dropping the farthest *)
Lemma shrink_split n h k : length h <= n ->
  exists h' rest, shrink n h k = Val h' /\ h ≡ₚ h' ++ rest /\ length h' = Nat.min k (length h) /\
    (Forall enum h -> mm_ok min_less h -> forall x y, x ∈ h' -> y ∈ rest -> ~ closer y x).
Proof.
  revert h. induction n as [|n IH]; intros h Hn; cbn [shrink].
  - destruct (Nat.ltb_spec k (length h)); [lia|]. exists h, []. rewrite app_nil_r. split_and!; try done; [lia|].
    intros _ _ x y _ Hy. by apply elem_of_nil in Hy.
  - destruct (Nat.ltb_spec k (length h)) as [Hk|Hk].
    2:{ exists h, []. rewrite app_nil_r. split_and!; try done; [lia|]. intros _ _ x y _ Hy. by apply elem_of_nil in Hy. }
    destruct (mm_pop_max_some min_less h) as (x & h1 & E); [intros ->; cbn [length] in Hk; lia|]. rewrite E.
    cbn [mbind out_bind]. pose proof (mm_pop_max_perm _ _ _ _ E) as Hp. pose proof (Permutation_length Hp) as Hl. cbn [length] in Hl.
    destruct (IH h1) as (h' & rest & E1 & Hp1 & Hl1 & Ho); [lia|]. exists h', (x :: rest). split; [done|]. split.
    { rewrite Hp, Hp1. by rewrite Permutation_middle. }
    split; [lia|]. intros Hg Hh. destruct (mm_pop_max_ok min_less enum min_less_irr min_less_asym min_less_ntrans _ _ _ Hg Hh E) as (_ & Hh1 & Hmax).
    assert (Forall enum h1) as Hg1 by (rewrite Hp in Hg; by inversion Hg).
    intros a b Ha [-> |Hb]%elem_of_cons; [|by apply (Ho Hg1 Hh1)].
    assert (a ∈ h) as Ha' by (rewrite Hp, Hp1; right; apply elem_of_app; by left). specialize (Hmax a Ha'). unfold R in Hmax. cbn in Hmax.
    intros Hc. change (min_less x a = true) in Hc. congruence.
Qed.

(** Specification of one index's share: what a search of index [p] alone answers. *)
Definition answers (c : dcfg) (da : dann) (q : fvec) (k F p : nat) (es : list elem) : Prop :=
  exists mi, da_mem da !! p = Some mi /\
    (forall fuel, F <= fuel -> msearch (dc_fn c) (da_del da) fuel mi q k (dc_list c) = Val es) /\
    sound_result (dc_fn c) (da_del da) mi q k es.

Lemma answers_exists c s q k p mi : proper c -> DInv c s -> da_mem (ds_da s) !! p = Some mi -> mi_graph mi <> ∅ ->
  N.of_nat (length q) = dc_dim c -> exists F es, answers c (ds_da s) q k F p es.
Proof.
  intros Ht H Em Hne Hq. destruct (di_mem c s H p mi Em) as (W & Wd & _).
  assert (mi_once mi = true) as Ho. { destruct W as (_ & _ & W). destruct (mi_once mi); [done|]. by destruct W. }
  destruct (C56_search_sound (dc_fn c) (da_del (ds_da s)) mi q k (dc_list c)) as (F & es & E & Hs).
  - by apply wfm_linked.
  - apply measurable_ok; [rewrite Wd; exact Ht|apply W|congruence].
  - exists F, es, mi. done.
Qed.
Lemma answers_mono c da q k F F' p es : F <= F' -> answers c da q k F p es -> answers c da q k F' p es.
Proof. intros Hf (mi & Em & E & Hs). exists mi. split; [done|]. split; [|done]. intros fuel Hl. apply E. lia. Qed.
Lemma answers_all c s q k ps : proper c -> DInv c s -> N.of_nat (length q) = dc_dim c ->
  (forall p, p ∈ ps -> exists mi, da_mem (ds_da s) !! p = Some mi /\ mi_graph mi <> ∅) ->
  exists F parts, Forall2 (answers c (ds_da s) q k F) ps parts /\
    forall fuel, F <= fuel -> search_ros c fuel (ds_da s) q k ps = Val (concat parts).
Proof.
  intros Ht H Hq. induction ps as [|p ps IH]; intros Hps; [by exists 0, []|].
  destruct (Hps p) as (mi & Em & Hne); [by left|].
  destruct (answers_exists c s q k p mi Ht H Em Hne Hq) as (F1 & es & HA).
  destruct IH as (F2 & parts & HB & E2); [intros p' Hp'; apply Hps; by right|].
  exists (Nat.max F1 F2), (es :: parts). split.
  { constructor; [eapply answers_mono; [|exact HA]; lia|]. eapply Forall2_impl; [exact HB|]. intros p' es' Hp'. eapply answers_mono; [|exact Hp']. lia. }
  intros fuel Hf. destruct HA as (mi' & Em' & E & _). cbn [search_ros]. rewrite Em'. cbn [or_pan mbind out_bind].
  rewrite E by lia. cbn [mbind out_bind]. rewrite E2 by lia. done.
Qed.

(** [e] is an accepted vector with its distance to [q]. *)
Definition accepted (c : dcfg) (s : dsys) (q : fvec) (e : elem) : Prop :=
  exists i cl p, ds_calls s !! i = Some cl /\ ic_pc cl = IRet (e_id e) p (Val tt) /\ dc_fn c (ic_vec cl) q = Val (e_dist e).

Lemma answers_accepted c s q k F p es : DInv c s -> answers c (ds_da s) q k F p es ->
  length es <= k /\ NoDup (e_id <$> es) /\
  forall e, e ∈ es -> exists i cl, ds_calls s !! i = Some cl /\ ic_pc cl = IRet (e_id e) p (Val tt) /\ dc_fn c (ic_vec cl) q = Val (e_dist e).
Proof.
  intros H (mi & Em & _ & Hl & Hn & Hf & _). split; [done|]. split; [done|]. intros e He. rewrite Forall_forall in Hf.
  destruct (Hf e He) as (v & Ev & _ & Ed). apply skel_lookup in Ev.
  apply (di_stored c s H p mi _ _ Em) in Ev as (i & cl & Hi & Pi & E). exists i, cl. split; [done|]. split; [done|].
  injection E as _ _ E. by rewrite <- E.
Qed.

Lemma parts_NoDup c s q k F ps parts : DInv c s -> NoDup ps -> Forall2 (answers c (ds_da s) q k F) ps parts -> NoDup (e_id <$> concat parts).
Proof.
  intros H Hn HF. induction HF as [|p es ps parts HA HF IH]; [constructor|]. apply NoDup_cons in Hn as [Hp Hn].
  cbn [concat]. rewrite fmap_app. apply NoDup_app.
  destruct (answers_accepted c s q k F p es H HA) as (_ & Hnd & Hes). split; [done|]. split; [|by apply IH].
  intros x (e & -> & He)%elem_of_list_fmap (e' & Ex & He')%elem_of_list_fmap.
  apply elem_of_list_In, in_concat in He' as (es' & Hes' & He'). apply elem_of_list_In in Hes', He'.
  apply elem_of_list_lookup in Hes' as [j Hj]. destruct (Forall2_lookup_r _ _ _ j es' HF Hj) as (p' & Hp' & HA').
  destruct (Hes e He) as (i & cl & Hi & Pi & _).
  destruct (answers_accepted c s q k F p' es' H HA') as (_ & _ & Hes'). destruct (Hes' e' He') as (i' & cl' & Hi' & Pi' & _).
  assert (i = i') as <-. { apply (di_uniq c s H i i' cl cl' (e_id e)); [done|done|by rewrite Pi|by rewrite Pi', Ex]. }
  assert (p = p') as <- by congruence. apply Hp. by eapply elem_of_list_lookup_2.
Qed.

(** What holds, while no insert is rotating and no index is empty: the search
    answers with k of what the memory indexes answer (all of it if that is no
    more than k), distinct accepted vectors with their distances; and if the
    first of the merged results is a closest one, as with a single index, it
    keeps the closest. *)
Theorem C75_search_partial :
  forall c evs s q k, proper c -> reached c evs s -> N.of_nat (length q) = dc_dim c ->
    da_lock (ds_da s) = false -> (forall p mi, da_mem (ds_da s) !! p = Some mi -> mi_graph mi <> ∅) ->
    exists F parts res rest,
      (forall fuel, F <= fuel -> da_search c fuel (ds_da s) q k = Val res) /\
      Forall2 (answers c (ds_da s) q k F) (da_rw (ds_da s) :: seq 0 (da_rw (ds_da s))) parts /\
      concat parts ≡ₚ res ++ rest /\ length res = Nat.min k (length (concat parts)) /\
      NoDup (e_id <$> res ++ rest) /\ Forall (accepted c s q) (res ++ rest) /\
      (Forall mnot_nan (concat parts) -> (forall x y, head (concat parts) = Some x -> y ∈ concat parts -> ~ closer y x) ->
         forall x y, x ∈ res -> y ∈ rest -> ~ closer y x).
Proof.
  intros c evs s q k Ht Hr Hq Hl Hne. apply reached_inv in Hr as H; [|done].
  pose proof (di_rw c s H) as Hrw.
  assert (da_ro (ds_da s) = seq 0 (da_rw (ds_da s))) as Hro.
  { destruct (di_ro c s H) as [E|(_ & i & cl & Hi & Pi)]; [done|]. exfalso. rewrite (di_lock c s H i cl Hi) in Hl; [discriminate|by rewrite Pi]. }
  assert (forall p, p <= da_rw (ds_da s) -> exists mi, da_mem (ds_da s) !! p = Some mi /\ mi_graph mi <> ∅) as Hall.
  { intros p Hp. destruct (lookup_lt_is_Some_2 (da_mem (ds_da s)) p) as [mi Em]; [lia|]. exists mi. split; [done|]. by eapply Hne. }
  destruct (answers_all c s q k (da_rw (ds_da s) :: seq 0 (da_rw (ds_da s))) Ht H Hq) as (F & parts & HF & _).
  { intros p [-> |Hp%elem_of_seq]%elem_of_cons; apply Hall; lia. }
  destruct (answers_all c s q k (seq 0 (da_rw (ds_da s))) Ht H Hq) as (F' & parts' & HF' & E').
  { intros p Hp%elem_of_seq; apply Hall; lia. }
  assert (exists es, parts = es :: parts') as (es & ->).
  { inversion HF as [|p0 es ps0 ps1 HA HB]; subst. exists es. f_equal. clear - HB HF'.
    revert HB. generalize dependent ps1. induction HF' as [|p es' ps parts (mi & Em & E & _) HF' IH]; intros ps1 HB; inversion HB as [|? es1 ? ps2 (mi1 & Em1 & E1 & _) HB1]; subst; [done|].
    f_equal; [|by apply IH]. rewrite Em in Em1. injection Em1 as <-. specialize (E (Nat.max F F') ltac:(lia)). specialize (E1 (Nat.max F F') ltac:(lia)). congruence. }
  destruct (shrink_split (length (new_mm_heap (concat (es :: parts')))) (new_mm_heap (concat (es :: parts'))) k) as (res & rest & Es & Hp & Hlen & Ho); [done|].
  assert (Hperm : concat (es :: parts') ≡ₚ res ++ rest) by (rewrite <- Hp; symmetry; apply mm_init_perm).
  exists (Nat.max F F'), (es :: parts'), res, rest. split; [|split; [|split; [|split; [|split; [|split]]]]].
  - intros fuel Hf. unfold da_search. rewrite Hro. rewrite E' by lia.
    inversion HF as [|? ? ? ? (mi & Em & E & _) _]; subst. rewrite Em. cbn [or_pan mbind out_bind]. rewrite E by lia. exact Es.
  - eapply Forall2_impl; [exact HF|]. intros p0 es0 HA. eapply answers_mono; [|exact HA]. lia.
  - exact Hperm.
  - rewrite Hlen. unfold new_mm_heap. by rewrite (Permutation_length (mm_init_perm _ _)).
  - rewrite <- Hperm. eapply parts_NoDup; [exact H| |exact HF]. constructor; [intros Hx%elem_of_seq; lia|apply NoDup_seq].
  - rewrite <- Hperm. apply Forall_forall. intros e He. apply elem_of_list_In, in_concat in He as (es' & Hes' & He). apply elem_of_list_In in Hes', He.
    apply elem_of_list_lookup in Hes' as [j Hj]. destruct (Forall2_lookup_r _ _ _ j es' HF Hj) as (p' & _ & HA).
    destruct (answers_accepted c s q k F p' es' H HA) as (_ & _ & Hes). destruct (Hes e He) as (i & cl & ?). by exists i, cl, p'.
  - intros Hn Hhd. assert (Forall enum (concat (es :: parts'))) as He by (eapply Forall_impl; [exact Hn|apply mnot_nan_enum]).
    apply Ho; [unfold new_mm_heap; by rewrite mm_init_perm|].
    apply (mm_init_ok_root_min min_less enum min_less_irr min_less_asym min_less_ntrans); [exact He|].
    intros y Hy. destruct (concat (es :: parts')) as [|x l]; [by inversion Hy|]. specialize (Hhd x y eq_refl Hy). apply not_true_is_false. exact Hhd.
Qed.
Print Assumptions C75_search_partial.

(** Five vectors in three indexes; the query is nearest to the last, which is in
    the newest index, so the closest two are kept. *)
Example C75_case :
  match drun (cfg1 2) 20 (dinit (cfg1 2)) (seq_evs 0 five) with
  | Val s =>
      (e_id <$> match da_search (cfg1 2) 20 (ds_da s) (f1 1084227584) 2 with Val r => r | _ => [] end) = [5; 4]%N /\
      (e_id <$> match da_search (cfg1 2) 20 (ds_da s) (f1 1084227584) 9 with Val r => r | _ => [] end) = [5; 2; 1; 4; 3]%N /\
      da_lock (ds_da s) = false /\ Forall (fun mi => size (mi_graph mi) <> 0) (da_mem (ds_da s))
  | _ => False
  end.
Proof. vm_compute. split; [reflexivity|]. split; [reflexivity|]. split; [reflexivity|]. repeat constructor; discriminate. Qed.

(** ** C77 A new index takes vectors and finds them *)
(** [calls_of]: the vectors the calls of a schedule insert. *)
Definition calls_of (evs : list dev) : list fvec := omap (fun e => match e with EvCall v _ => Some v | _ => None end) evs.

(** False for the code: NewDiskAnn leaves dimension, limit and distance function
    unset.  Whatever is called, in whatever order and interleaving: every insert
    of a non-empty vector fails, nothing is stored and every search panics. *)
Theorem C77_new_index_refuted :
  forall evs fuel s, Forall (fun v => v <> []) (calls_of evs) -> drun default_cfg fuel (dinit default_cfg) evs = Val s ->
    (forall i cl id p r, ds_calls s !! i = Some cl -> ic_pc cl = IRet id p r -> exists e, r = Err e) /\
    (forall fuel' q k, da_search default_cfg fuel' (ds_da s) q k = Pan PNil).
Proof.
  intros evs fuel.
  set (Inv := fun s : dsys => (forall i cl, ds_calls s !! i = Some cl -> ic_vec cl <> [] /\
      forall id p r, ic_pc cl = IRet id p r -> exists e, r = Err e) /\
    da_rw (ds_da s) < length (da_mem (ds_da s)) /\
    forall p mi, da_mem (ds_da s) !! p = Some mi -> mi_dim mi = 0%N /\ mi_graph mi = ∅).
  assert (forall evs s s', Forall (fun v => v <> []) (calls_of evs) -> Inv s -> drun default_cfg fuel s evs = Val s' -> Inv s') as HH.
  { clear evs. induction evs as [|e evs IH]; intros s s' Hv HI E; cbn [drun] in E; [by apply Val_inj in E as <-|].
    destruct (dstep default_cfg fuel s e) as [s1|?|?] eqn:E1; [|done..]. cbn [mbind out_bind] in E.
    assert (Forall (fun v => v <> []) (calls_of evs)) as Hv1 by (destruct e; cbn in Hv; [by inversion Hv|done..]).
    apply (IH s1 s' Hv1); [|exact E]. clear IH E. destruct HI as (H1 & H2 & H3). destruct e as [v obj|i|ok|obj]; cbn [dstep] in E1.
    - apply Val_inj in E1 as <-. split; [|done]. cbn [ds_calls]. intros i cl [Hi|[_ Hc]]%lookup_app_Some; [by apply (H1 i)|].
      apply list_lookup_singleton_Some in Hc as [_ <-]. cbn. split; [by inversion Hv|done].
    - destruct (ds_calls s !! i) as [cl|] eqn:Ei; [|by apply Val_inj in E1 as <-].
      destruct (istep _ _ _ _ _) as [[[da' pc']|]|?|?] eqn:Es; [|by apply Val_inj in E1 as <-|done..]. cbn [mbind out_bind] in E1. apply Val_inj in E1 as <-.
      destruct (H1 i cl Ei) as [Hne Hret].
      assert ((forall id p r, pc' = IRet id p r -> exists e, r = Err e) /\ da_rw da' < length (da_mem da') /\
              forall p mi, da_mem da' !! p = Some mi -> mi_dim mi = 0%N /\ mi_graph mi = ∅) as (G1 & G2).
      { destruct (ic_pc cl) eqn:Epc; cbn [istep] in Es.
        - destruct (da_lock _); [done|]. destruct (da_mem (ds_da s) !! da_rw (ds_da s)) as [mi|] eqn:Em; [|done]. cbn [or_pan mbind out_bind] in Es.
          destruct (_ =? _)%N; injection Es as <- <-; [|done]. split; [done|]. cbn [da_rw da_mem]. rewrite insert_length. split; [done|].
          intros p m [(<- & <- & _)|[_ Hm]]%list_lookup_insert_Some; [|by apply (H3 p)]. by apply (H3 _ _ Em).
        - injection Es as <- <-. done.
        - injection Es as <- <-. split; [done|]. cbn [da_rw da_mem]. rewrite app_length. cbn. split; [lia|].
          intros p m [Hm|[_ Hm]]%lookup_app_Some; [by apply (H3 p)|]. apply list_lookup_singleton_Some in Hm as [_ <-]. done.
        - injection Es as <- <-. done.
        - injection Es as <- <-. done.
        - destruct (da_mem (ds_da s) !! p) as [mi|] eqn:Em; [|done]. cbn [or_pan mbind out_bind] in Es.
          destruct (H3 _ _ Em) as [Hd _]. unfold minsert in Es. rewrite Hd in Es.
          assert ((N.of_nat (length (ic_vec cl)) =? 0)%N = false) as Hz. { apply N.eqb_neq. destruct (ic_vec cl); [done|cbn; lia]. }
          rewrite Hz in Es. cbn [negb] in Es. destruct (mi_ro mi); injection Es as <- <-; (split; [|done]); intros ? ? ? [= <- <- <-]; by eexists.
        - done. }
      split; [|done]. cbn [ds_calls]. intros j cj [(<- & <- & _)|[_ Hj]]%list_lookup_insert_Some; [|by apply (H1 j)]. done.
    - destruct (snap_step _ _) as [da'|?|?] eqn:Es; [|done..]. cbn [mbind out_bind] in E1. apply Val_inj in E1 as <-.
      destruct (snap_same _ _ _ Es) as (n & fs & ->). done.
    - apply Val_inj in E1 as <-. done. }
  intros s Hv E. destruct (HH evs (dinit default_cfg) s Hv) as (H1 & H2 & H3); [|exact E|].
  { split; [intros i cl Hi; cbn in Hi; by rewrite lookup_nil in Hi|]. cbn. split; [lia|]. intros p mi Hm.
    apply list_lookup_singleton_Some in Hm as [_ <-]. done. }
  split; [intros i cl id p r Hi Pi; by eapply H1|].
  intros fuel' q k. unfold da_search. apply lookup_lt_is_Some_2 in H2 as [mi Em]. rewrite Em. cbn [or_pan mbind out_bind].
  unfold msearch, mvisit. destruct (H3 _ _ Em) as [_ ->]. by rewrite lookup_empty.
Qed.
Print Assumptions C77_new_index_refuted.

(** An empty vector is accepted once; the second one panics on the nil distance
    function. *)
Theorem C77_nil_distance_refuted :
  exists s, drun default_cfg 20 (dinit default_cfg) (one_insert 0 [] 1) = Val s /\
    (exists id p, ic_pc <$> ds_calls s = [IRet id p (Val tt)]) /\
    forall fuel, drun default_cfg fuel s (one_insert 1 [] 2) = Pan PNil.
Proof.
  destruct (drun default_cfg 20 (dinit default_cfg) (one_insert 0 [] 1)) as [s|?|?] eqn:E; [|vm_compute in E; discriminate E..].
  exists s. split; [reflexivity|]. vm_compute in E. apply Val_inj in E. subst s.
  split; [by eexists _, _|]. intros fuel. vm_compute. reflexivity.
Qed.
Print Assumptions C77_nil_distance_refuted.

(** What holds: with the settings filled in and a limit of at least one, a new
    index accepts a vector of its dimension, and a search for it finds it. *)
Theorem C77_usable_partial :
  forall c v obj k, proper c -> dc_limit c <> 0%N -> N.of_nat (length v) = dc_dim c -> k <> 0 ->
    exists s d, (forall fuel, drun c fuel (dinit c) (one_insert 0 v obj) = Val s) /\
      (exists p, ds_calls s = [ICall v obj (IRet 1 p (Val tt))]) /\ dc_fn c v v = Val d /\
      forall fuel, da_search c (S fuel) (ds_da s) v k = Val [Elem 1 d].
Proof.
  intros c v obj k Ht Hlim Hv Hk. destruct (Ht v v Hv Hv) as [d Ed].
  set (mi := MIndex {[1%N := DVertex 1 0 [] v]} 1 (dc_dim c) (dc_deg c) 1 true false 0).
  exists (DSys (DAnn [mi] 0 [] ∅ 2 false 0 ∅) [ICall v obj (IRet 1 0 (Val tt))]), d. split; [|split; [by exists 0|split; [done|]]].
  - intros fuel. pose proof (one_insert_run c fuel (new_dann c) [] v obj (new_mindex 1 (dc_deg c) (dc_dim c)) eq_refl eq_refl ltac:(cbn; lia)) as E.
    cbv zeta in E. unfold checked in E. change (mi_count (new_mindex 1 (dc_deg c) (dc_dim c))) with 0%N in E.
    rewrite (proj2 (N.eqb_neq 0 (dc_limit c))) in E by done. cbn [with_cur new_dann da_mem da_rw da_cur or_pan lookup list_lookup mbind out_bind] in E.
    unfold minsert in E at 1. cbn [new_mindex mi_ro mi_dim mi_once] in E. rewrite (proj2 (N.eqb_eq _ _) Hv) in E. cbn [negb] in E.
    exact E.
  - intros fuel. unfold da_search. cbn [ds_da da_mem da_rw lookup list_lookup or_pan mbind out_bind da_ro search_ros da_del].
    unfold msearch, mvisit. unfold mi. cbn [mi_graph mi_s]. rewrite lookup_singleton. cbn [or_pan mbind out_bind dv_vec]. rewrite Ed. cbn [mbind out_bind].
    assert (new_mm_heap [Elem 1 d] = [Elem 1 d]) as -> by reflexivity.
    assert (mm_pop min_less [Elem 1 d] = Val (Elem 1 d, [])) as Ep by reflexivity.
    cbn [msearch_loop]. rewrite Ep. cbn [mbind out_bind e_id]. rewrite bool_decide_false by set_solver.
    rewrite lookup_singleton. cbn [or_pan mbind out_bind dv_obj dv_nbrs push_nbrs]. rewrite bool_decide_false by set_solver.
    assert (forall vis, msearch_loop (dc_fn c) ∅ fuel {[1%N := DVertex 1 0 [] v]} v (dc_list c) [] vis ([] ++ [Elem 1 d]) = Val [Elem 1 d]) as -> by (by destruct fuel).
    cbn [mbind out_bind]. assert (pop_k k (heap_init min_less [Elem 1 d]) = Val [Elem 1 d]) as ->.
    { destruct k as [|k]; [done|]. cbn. by destruct k. }
    cbn [mbind out_bind app]. assert (new_mm_heap [Elem 1 d] = [Elem 1 d]) as -> by reflexivity.
    cbn [length shrink]. destruct (Nat.ltb_spec k 1); [lia|done].
Qed.
Print Assumptions C77_usable_partial.
Example C77_case : proper (cfg1 3) /\ dc_limit (cfg1 3) <> 0%N /\ N.of_nat (length (f1 1065353216)) = dc_dim (cfg1 3) /\
  Forall (fun v => v <> []) (calls_of race_evs).
Proof. split; [apply cfg1_proper|]. split; [discriminate|]. split; [reflexivity|]. repeat constructor; discriminate. Qed.
