(** How good the answers are: C18, C19, C21, C32. *)
From stdpp Require Import sorting relations.
From Verif Require Import GoBase FloatModel HeapModel ProgModel StateModel WalModel HnswModel CollModel DBModel
  ProofBase CodecProofs FloatProofs HeapProofs WpProofs HnswProofs IndexProofs StepProofs SeqLog IndexHist PropIndex ExactProofs.
From Coq Require Import SpecFloat.
Open Scope nat_scope.

(** ** Specifications *)
(** The objects that were inserted and not deleted, by the calls alone. *)
Definition live_ids (ops : list iop) : list N := filter (fun id => id ∉ hist_del ops) (hist_ins ops).
(** The exact answer: [k] live objects (all of them if there are fewer), in
    increasing distance, none left out that is nearer than one given. *)
Record exact_knn (P : hparams) (ops : list iop) (q : fvec) (k : Z) (res : list elem) : Prop := MkExact {
  ek_count : length res = Nat.min (Z.to_nat k) (length (live_ids ops));
  ek_sorted : StronglySorted not_further res;
  ek_distinct : NoDup (e_id <$> res);
  ek_live : forall e, e ∈ res -> e_id e ∈ live_ids ops /\
    exists level v, IInsert level v (e_id e) ∈ ops /\ dist_func (hp_dist P) v q = Val (e_dist e);
  ek_best : forall e level v id d, e ∈ res -> IInsert level v id ∈ ops -> id ∈ live_ids ops -> id ∉ e_id <$> res ->
    dist_func (hp_dist P) v q = Val d -> SFltb d (e_dist e) = false
}.

(** [a] lists [b] as a neighbour on layer 0. *)
Definition linked (s : st) (a b : N) : Prop :=
  exists v cs, nodes s !! a = Some v /\ v_conns v !! 0 = Some cs /\ b ∈ cs.
Definition all_reachable (s : st) : Prop := forall id, is_Some (nodes s !! id) -> rtc (linked s) (ep s) id.

(** ** The complete bottom layer along a history *)
Lemma hist_ins_inv id ops : id ∈ hist_ins ops -> exists level v, IInsert level v id ∈ ops.
Proof.
  unfold hist_ins. intros (x & Hx & Hin)%elem_of_list_join. apply elem_of_list_fmap in Hin as (o & -> & Ho).
  destruct o as [level v id'| |]; cbn in Hx; try by apply elem_of_nil in Hx. apply elem_of_list_singleton in Hx. subst id'. by eauto.
Qed.
Lemma hist_del_in id ops : id ∈ hist_del ops <-> IDelete id ∈ ops.
Proof.
  unfold hist_del. rewrite elem_of_list_join. split.
  - intros (x & Hx & Hin). apply elem_of_list_fmap in Hin as (o & -> & Ho).
    destruct o as [|id'|]; cbn in Hx; try by apply elem_of_nil in Hx. apply elem_of_list_singleton in Hx. by subst id'.
  - intros Hin. exists [id]. split; [by apply elem_of_list_singleton|]. apply elem_of_list_fmap. by exists (IDelete id).
Qed.
Lemma HInv_dom P okv U ops s : HInv P okv U ops s -> forall id, id ∈ dom (nodes s) <-> id ∈ hist_ins ops.
Proof.
  intros HI id. rewrite elem_of_dom. split.
  - intros [v Hv]. destruct (hi_back _ _ _ _ _ HI _ _ Hv) as (level & Hin & _). by eapply hist_ins_in.
  - intros (level & v & Hin)%hist_ins_inv. destruct (hi_fwd _ _ _ _ _ HI _ _ _ Hin) as (x & Hx & _). by exists x.
Qed.
Lemma HInv_size P okv U ops s : HInv P okv U ops s -> NoDup (hist_ins ops) -> size (dom (nodes s)) = length (hist_ins ops).
Proof.
  intros HI Hnd. rewrite <- (size_list_to_set (C := gset N) (hist_ins ops)) by done. f_equal. apply set_eq. intros id.
  by rewrite (HInv_dom _ _ _ _ _ HI), elem_of_list_to_set.
Qed.
Lemma HInv_closed P okv U ops s l : HInv P okv U ops s -> closed_at (dom (nodes s)) l s.
Proof.
  intros HI i v cs c _ Hv Hcs Hc. destruct (inv_conn _ _ _ _ _ (hi_inv _ _ _ _ _ HI) _ _ _ _ _ Hv Hcs Hc) as (w & Hw & _).
  by eapply elem_of_dom_2.
Qed.

Section grow.
  Context (P : hparams) (n fuel : nat) (okv : fvec -> Prop) (U : gset N).
  Context (Hdist : forall v1 v2, okv v1 -> okv v2 -> exists d, dist P v1 v2 = Val d).
  Context (HP : params_ok P) (Hfuel : size U <= fuel) (Hnn : nonan P okv).
  Context (Hheur : hp_heuristic P = false).

  Lemma HInv_numbers ops s q X : HInv P okv U ops s -> okv q -> numbers P X q s.
  Proof using Hnn.
    clear HP Hfuel Hdist Hheur. intros HI Hq i v d _ Hv Hd. eapply Hnn; [|done..]. by eapply (inv_vec _ _ _ _ _ (hi_inv _ _ _ _ _ HI)).
  Qed.

  Lemma irun_cliq pre ops s s' rs :
    hist_ok P n (pre ++ ops) -> (forall v, v ∈ hist_vecs ops -> okv v) -> (forall id, id ∈ hist_ins ops -> id ∈ U) ->
    length (hist_ins (pre ++ ops)) <= S (hp_m P) -> length (hist_ins (pre ++ ops)) <= S (hp_efc P) ->
    HInv P okv U pre s -> cliq (dom (nodes s)) s -> irun P fuel ops s = Some (s', rs) -> cliq (dom (nodes s')) s'.
  Proof using Hdist HP Hfuel Hnn Hheur.
    revert pre s rs. induction ops as [|o ops IH]; intros pre s rs Hok Hvs HU HM Hefc HI Hc; cbn [irun].
    { by intros [<- _]%Some_pair_inj. }
    destruct (exec (iop_prog P fuel o) s) as [[s1 r]|] eqn:Ex; [|done].
    destruct (irun P fuel ops s1) as [[s2 rs2]|] eqn:Er; [|done]. intros [<- _]%Some_pair_inj.
    assert (HInv P okv U (pre ++ [o]) s1 /\ cliq (dom (nodes s1)) s1) as [HI1 Hc1].
    { destruct o as [level vec id|id|q k]; cbn [iop_prog] in Ex.
      - assert (okv vec) as Hv by (apply Hvs; eapply hist_vecs_in; [apply elem_of_list_here|]; cbn; set_solver).
        assert (id ∉ hist_ins pre) as Hnew.
        { pose proof (hok_ids _ _ _ Hok) as Hnd. rewrite hist_ins_app in Hnd. apply NoDup_app in Hnd as (_ & Hnd & _).
          intros Hin. apply (Hnd _ Hin). eapply hist_ins_in, elem_of_list_here. }
        destruct (HInv_insert P okv U fuel Hdist HP Hfuel pre s level vec id) as (s1' & Hx & HI1); try done.
        { apply HU. eapply hist_ins_in, elem_of_list_here. }
        rewrite exec_bind, Hx in Ex. apply Some_pair_inj in Ex as [<- _]. split; [done|].
        assert (size (dom (nodes s)) = length (hist_ins pre)) as Hsz.
        { apply (HInv_size _ _ _ _ _ HI). apply (hok_ids _ _ _ (hist_ok_prefix _ _ _ _ Hok)). }
        rewrite hist_ins_app, app_length in HM, Hefc. cbn in HM, Hefc.
        pose proof (pok_deg P HP). pose proof (hi_inv _ _ _ _ _ HI) as HI0.
        assert (dom (nodes s1') = {[id]} ∪ dom (nodes s)) as ->.
        { apply set_eq. intros j. rewrite elem_of_union, elem_of_singleton, (HInv_dom _ _ _ _ _ HI1), (HInv_dom _ _ _ _ _ HI).
          rewrite hist_ins_app, elem_of_app. cbn. set_solver. }
        apply (insert_cliq P 0 fuel level vec id s s1'); try done; unfold mMax0; try lia.
        + apply not_elem_of_dom. by rewrite (HInv_dom _ _ _ _ _ HI).
        + by eapply HInv_numbers.
        + intros m. by eapply HInv_closed.
        + apply (inv_once _ _ _ _ _ HI0).
        + destruct (decide (nodes s = ∅)) as [?|Hne]; [by right|]. left.
          destruct (inv_ep _ _ _ _ _ HI0 Hne) as (v & Hv' & _). by exists v.
      - destruct (HInv_delete P okv U pre s id HI) as (s1' & Hx & HI1 & En & _). rewrite exec_bind, Hx in Ex.
        apply Some_pair_inj in Ex as [<- _]. split; [done|]. rewrite En. intros i Hi. rewrite En. by apply Hc.
      - destruct (hok_search _ _ _ Hok pre q k ops eq_refl) as [Hne Hk].
        destruct (HInv_search P okv U fuel Hdist HP Hfuel pre s q k HI) as (near & Hx & _); try done.
        { apply Hvs. eapply hist_vecs_in; [apply elem_of_list_here|]. cbn. set_solver. }
        rewrite Hx in Ex. apply Some_pair_inj in Ex as [<- _]. split; [by apply HInv_search_same|done]. }
    eapply (IH (pre ++ [o]) s1); [..|exact Er]; rewrite <- ?app_assoc; try done.
    - intros v Hv. apply Hvs. change (o :: ops) with ([o] ++ ops). rewrite hist_vecs_app. set_solver.
    - intros v Hv. apply HU. change (o :: ops) with ([o] ++ ops). rewrite hist_ins_app. set_solver.
  Qed.
End grow.

(** ** C18, the part that holds *)
(** With the simple neighbour selection, while the index holds at most M + 1
    vectors (and no more than ef_construction and ef), every search is exact. *)
Lemma small_exact P n fuel ops q k :
  params_ok P -> hist_ok P n (ops ++ [ISearch q k]) -> length (hist_ins ops) <= fuel ->
  no_nan P (q :: hist_vecs ops) -> hp_heuristic P = false ->
  length (hist_ins ops) <= S (hp_m P) -> length (hist_ins ops) <= S (hp_efc P) -> length (hist_ins ops) <= hp_ef P ->
  exists s rs res, irun P fuel (ops ++ [ISearch q k]) empty_st = Some (s, rs ++ [Val res]) /\ exact_knn P ops q k res.
Proof.
  intros HP Hok Hf Hnan Hheur HM Hefc Hef.
  set (okv := fun v => v ∈ q :: hist_vecs ops).
  assert (forall v, v ∈ q :: hist_vecs ops -> length v = n) as Hdim.
  { intros v Hv. apply (hok_dim _ _ _ Hok). rewrite hist_vecs_app. cbn. set_solver. }
  assert (forall v1 v2, okv v1 -> okv v2 -> exists d, dist P v1 v2 = Val d) as Hdist.
  { intros v1 v2. apply (dims_total P n); [apply Hok|done]. }
  assert (nonan P okv) as Hnn.
  { intros v1 v2 d H1 H2 Hd. apply num_nan. exact (Hnan v1 v2 d H1 H2 Hd). }
  assert (okv q) as Hq by (unfold okv; set_solver).
  pose proof (hist_ok_prefix _ _ _ _ Hok) as Hok1.
  destruct (irun_new P n okv fuel ops HP Hok1 Hdist) as (s & rs & Hr & _ & _ & HI & Hsz); [unfold okv; set_solver|done|].
  assert (cliq (dom (nodes s)) s) as Hc.
  { eapply (irun_cliq P n fuel okv (list_to_set (hist_ins ops)) Hdist HP Hsz Hnn Hheur [] ops empty_st s rs); try done.
    - unfold okv; set_solver.
    - intros id Hid. by apply elem_of_list_to_set.
    - apply HInv_empty. }
  destruct (hok_search _ _ _ Hok ops q k [] eq_refl) as [Hne Hk].
  destruct (HInv_search P okv _ fuel Hdist HP Hsz ops s q k HI Hq Hne Hk) as (near0 & Hx & _).
  pose proof (hi_inv _ _ _ _ _ HI) as HI0. pose proof (HInv_nonempty _ _ _ _ _ HI Hne) as Hnempty.
  assert (size (dom (nodes s)) = length (hist_ins ops)) as Hsize.
  { apply (HInv_size _ _ _ _ _ HI), (hok_ids _ _ _ Hok1). }
  set (res := take _ _) in Hx.
  destruct (search_cliq P 0 fuel q k s s res) as (near & Hnd & Hids & Eres & Hgood); try done.
  { by rewrite Hsize. }
  { by eapply HInv_numbers. }
  { intros m. by eapply HInv_closed. }
  exists s, rs, res. split. { rewrite irun_app, Hr. cbn [irun iop_prog]. by rewrite Hx. }
  clearbody res. clear Hx near0.
  pose proof (heap_init_perm min_less near) as Hperm.
  set (order := drain (length near) (new_min_heap near)) in *.
  assert (order ≡ₚ near) as Hdr.
  { unfold order. rewrite drain_perm; [done|]. unfold new_min_heap. by rewrite (Permutation_length Hperm). }
  assert (Forall enum near) as Hnum. { apply Forall_forall. intros e He. by destruct (Hgood e He) as (_ & ? & _). }
  assert (StronglySorted nearer_eq order) as Hss.
  { apply drain_sorted; [unfold new_min_heap; by rewrite Hperm|].
    by apply (heap_init_ok min_less enum min_less_irr min_less_asym min_less_ntrans). }
  set (lv := filter (live (deleted s)) order) in *.
  assert (StronglySorted nearer_eq lv) as Hsl.
  { unfold lv. revert Hss. generalize order. clear. induction 1 as [|a l Hl IH Ha]; [constructor|]. rewrite filter_cons.
    case_decide; [|done]. constructor; [done|].
    apply Forall_forall. intros x [_ Hx']%elem_of_list_filter. rewrite Forall_forall in Ha. by apply Ha. }
  assert (forall id, id ∈ deleted s <-> id ∈ hist_del ops) as Hdel.
  { intros id. by rewrite (hi_del _ _ _ _ _ HI), elem_of_list_to_set. }
  assert (e_id <$> lv ≡ₚ live_ids ops) as Plv.
  { apply NoDup_Permutation.
    - eapply sublist_NoDup; [apply fmap_sublist, (sublist_filter (live (deleted s)))|]. by rewrite Hdr.
    - apply NoDup_filter, (hok_ids _ _ _ Hok1).
    - intros id. unfold live_ids, lv. rewrite elem_of_list_filter, elem_of_list_fmap. split.
      + intros (e & -> & [Hlive He]%elem_of_list_filter). rewrite Hdr in He. rewrite <- Hdel. split; [done|].
        apply (HInv_dom _ _ _ _ _ HI), Hids. apply elem_of_list_fmap. by exists e.
      + intros [Hnd' Hin]. apply (HInv_dom _ _ _ _ _ HI), Hids in Hin. apply elem_of_list_fmap in Hin as (e & -> & He).
        exists e. split; [done|]. apply elem_of_list_filter. split; [unfold live; by rewrite Hdel|by rewrite Hdr]. }
  assert (NoDup (e_id <$> lv)) as Hndlv. { rewrite Plv. apply NoDup_filter, (hok_ids _ _ _ Hok1). }
  assert (take (Z.to_nat k) lv ++ drop (Z.to_nat k) lv = lv) as Etd by apply take_drop.
  assert (forall e, e ∈ lv -> e ∈ near) as Hlvn.
  { intros e He. apply elem_of_list_filter in He as [_ He]. by rewrite Hdr in He. }
  assert (forall e level v, e ∈ lv -> IInsert level v (e_id e) ∈ ops -> dist_func (hp_dist P) v q = Val (e_dist e)) as Hdst.
  { intros e level v He Hins. destruct (Hgood e (Hlvn e He)) as (_ & _ & w & Hw & Hd).
    destruct (hi_fwd _ _ _ _ _ HI _ _ _ Hins) as (w' & Hw' & Ev & _). rewrite Hw in Hw'. injection Hw' as <-.
    rewrite <- Ev. exact Hd. }
  subst res. split.
  - rewrite take_length. f_equal. rewrite <- (fmap_length e_id lv). by apply Permutation_length.
  - revert Hsl. generalize (Z.to_nat k) lv. clear. intros m l Hl. revert m.
    induction Hl as [|a l Hl IH Ha]; intros [|m]; cbn; try constructor; [apply IH|]. by apply Forall_take.
  - rewrite fmap_take. eapply sublist_NoDup; [apply sublist_take|done].
  - intros e He. apply elem_of_take in He as (i & He & _). apply elem_of_list_lookup_2 in He. split.
    + rewrite <- Plv. apply elem_of_list_fmap. by exists e.
    + assert (e_id e ∈ hist_ins ops) as Hin.
      { apply (HInv_dom _ _ _ _ _ HI). apply (Hgood e (Hlvn e He)). }
      apply hist_ins_inv in Hin as (level & v & Hin). exists level, v. split; [done|]. by eapply Hdst.
  - intros e level v id d He Hins Hid Hout Hd.
    assert (exists e', e' ∈ lv /\ id = e_id e') as (e' & He' & ->).
    { rewrite <- Plv in Hid. apply elem_of_list_fmap in Hid as (e' & ? & ?). by exists e'. }
    rewrite (Hdst e' level v He' Hins) in Hd. apply Val_inj in Hd. subst d.
    assert (e' ∈ drop (Z.to_nat k) lv) as Hdrop.
    { rewrite <- Etd in He'. apply elem_of_app in He' as [He'|He']; [|done]. destruct Hout. apply elem_of_list_fmap. by exists e'. }
    revert Hsl He Hdrop. rewrite <- Etd at 1. generalize (take (Z.to_nat k) lv) (drop (Z.to_nat k) lv). clear.
    intros a b Hs He Hb. induction a as [|x a IH]; [by apply elem_of_nil in He|]. cbn [app] in Hs. inversion_clear Hs as [|?? Hs' Hx].
    apply elem_of_cons in He as [->|He]; [|by apply IH]. apply Forall_app in Hx as [_ Hx]. rewrite Forall_forall in Hx. by apply Hx.
Qed.

Theorem C18_small_collections_exact_partial :
  forall P n fuel ops q k,
    params_ok P -> hist_ok P n (ops ++ [ISearch q k]) -> length (hist_ins ops) <= fuel ->
    no_nan P (q :: hist_vecs ops) -> hp_heuristic P = false ->
    length (hist_ins ops) <= S (hp_m P) -> length (hist_ins ops) <= S (hp_efc P) -> length (hist_ins ops) <= hp_ef P ->
    exists s rs res, irun P fuel (ops ++ [ISearch q k]) empty_st = Some (s, rs ++ [Val res]) /\ exact_knn P ops q k res.
Proof. exact small_exact. Qed.
Print Assumptions C18_small_collections_exact_partial.

(** ** Refutation by computation *)
(** The vertices at most [n] links away from the entry point. *)
Fixpoint reached (n : nat) (s : st) : gset N :=
  match n with
  | O => {[ep s]}
  | S n' => let X := reached n' s in
      X ∪ ⋃ ((fun i => match nodes s !! i with
                       | Some v => match v_conns v !! 0 with Some cs => list_to_set cs | None => ∅ end
                       | None => ∅ end) <$> elements X)
  end.
Lemma reached_sound n s id : id ∈ reached n s -> rtc (linked s) (ep s) id.
Proof.
  revert id. induction n as [|n IH]; intros id; cbn [reached]; [by intros ->%elem_of_singleton|].
  intros [Hid|Hid]%elem_of_union; [by apply IH|]. apply elem_of_union_list in Hid as (Y & HY & Hid).
  apply elem_of_list_fmap in HY as (i & -> & Hi). apply elem_of_elements in Hi.
  destruct (nodes s !! i) as [v|] eqn:Ev; [|set_solver]. destruct (v_conns v !! 0) as [cs|] eqn:Ec; [|set_solver].
  apply elem_of_list_to_set in Hid. eapply rtc_r; [by apply IH|]. by exists v, cs.
Qed.
Lemma reached_all n s : bool_decide (dom (nodes s) ⊆ reached n s) = true -> all_reachable s.
Proof. intros H%bool_decide_eq_true id Hid%elem_of_dom. by apply (reached_sound n), H. Qed.

(** M = MMax = 3, points 4, 39, 37, 36, 24 inserted in this order, ef = 16, and
    every vertex can be reached: the nearest neighbour of 18 is 24 (id 5),
    found is 4 (id 1). *)
Definition ex18_params : hparams := HParams 3 3 8 16 false Euclidean.
Definition ex18_hist : list iop :=
  [IInsert 0 [1082130432]%N 1; IInsert 0 [1109131264]%N 2; IInsert 0 [1108606976]%N 3; IInsert 0 [1108344832]%N 4;
   IInsert 0 [1103101952]%N 5]%N.
Definition ex18_query : fvec := [1099956224]%N.
Definition last_ids (r : option (st * list (out (list elem)))) : option (list N) :=
  match r with
  | Some (_, rs) => match last rs with Some (Val res) => Some (e_id <$> res) | _ => None end
  | None => None
  end.
Lemma last_ids_inv P fuel ops o ids :
  last_ids (irun P fuel (ops ++ [o]) empty_st) = Some ids ->
  exists s rs res, irun P fuel (ops ++ [o]) empty_st = Some (s, rs ++ [Val res]) /\ e_id <$> res = ids.
Proof.
  unfold last_ids. destruct (irun P fuel (ops ++ [o]) empty_st) as [[s rs]|]; [|done].
  destruct (last rs) as [[res| |]|] eqn:El; [|done..]. intros [= <-]. apply last_Some in El as (rs' & ->). by exists s, rs', res.
Qed.

Theorem C18_small_collections_exact_refuted :
  exists P n ops q k s rs res,
    params_ok P /\ hist_ok P n (ops ++ [ISearch q k]) /\ no_nan P (q :: hist_vecs ops) /\ length (hist_ins ops) <= hp_ef P /\
    irun P (length (hist_ins ops)) (ops ++ [ISearch q k]) empty_st = Some (s, rs ++ [Val res]) /\
    all_reachable s /\ ~ exact_knn P ops q k res.
Proof.
  exists ex18_params, 1, ex18_hist, ex18_query, 1%Z.
  assert (last_ids (irun ex18_params (length (hist_ins ex18_hist)) (ex18_hist ++ [ISearch ex18_query 1]) empty_st) = Some [1%N]) as H
    by by vm_compute.
  assert (match irun ex18_params (length (hist_ins ex18_hist)) (ex18_hist ++ [ISearch ex18_query 1]) empty_st with
    | Some (s, _) => bool_decide (dom (nodes s) ⊆ reached 2 s) | None => false end = true) as Hreach by by vm_compute.
  apply last_ids_inv in H as (s & rs & res & Hr & Hids). rewrite Hr in Hreach. exists s, rs, res.
  split; [split; cbn; lia|]. split; [apply hist_ok_check; [done|]; by vm_compute|].
  split; [apply no_nan_check; by vm_compute|]. split; [vm_compute; lia|]. split; [exact Hr|]. clear Hr.
  split; [by eapply reached_all|].
  { intros He. destruct res as [|e [|? ?]]; try done. injection Hids as Hid.
    destruct (ek_live _ _ _ _ _ He e) as (_ & level & v & Hin & Hd); [apply elem_of_list_here|]. rewrite Hid in Hin.
    assert (v = [1082130432]%N) as ->.
    { unfold ex18_hist in Hin. repeat (apply elem_of_cons in Hin as [Hin|Hin]; [try congruence|]). by apply elem_of_nil in Hin. }
    pose proof (ek_best _ _ _ _ _ He e 0 [1103101952]%N 5%N (f32_val 1086324736%N)) as Hb.
    assert (SFltb (f32_val 1086324736%N) (e_dist e) = false) as Hf.
    { apply Hb.
      - apply elem_of_list_here.
      - repeat first [apply elem_of_list_here|apply elem_of_list_further].
      - apply (bool_decide_eq_true_1 (5%N ∈ live_ids ex18_hist)). by vm_compute.
      - cbn. rewrite Hid. by intros ?%elem_of_list_singleton.
      - by vm_compute. }
    assert (e_dist e = f32_val 1096810496%N) as Ed.
    { assert (dist_func (hp_dist ex18_params) [1082130432]%N ex18_query = Val (f32_val 1096810496%N)) as Hd' by by vm_compute.
      rewrite Hd' in Hd. by apply Val_inj in Hd. }
    rewrite Ed in Hf. by vm_compute in Hf. }
Qed.
Print Assumptions C18_small_collections_exact_refuted.

(** ** C19 *)
Theorem C19_own_vector_found_partial :
  forall P n fuel ops k level v id,
    params_ok P -> hist_ok P n (ops ++ [ISearch v k]) -> length (hist_ins ops) <= fuel -> no_nan P (hist_vecs ops) ->
    hp_heuristic P = false -> length (hist_ins ops) <= S (hp_m P) -> length (hist_ins ops) <= S (hp_efc P) ->
    length (hist_ins ops) <= hp_ef P -> (Z.of_nat (length (hist_ins ops)) <= k)%Z ->
    IInsert level v id ∈ ops -> IDelete id ∉ ops ->
    exists s rs res, irun P fuel (ops ++ [ISearch v k]) empty_st = Some (s, rs ++ [Val res]) /\ id ∈ e_id <$> res.
Proof.
  intros P n fuel ops k level v id HP Hok Hf Hnan Hheur HM Hefc Hef Hk Hin Hdel.
  assert (v ∈ hist_vecs ops) as Hv by (eapply hist_vecs_in; [exact Hin|cbn; set_solver]).
  destruct (small_exact P n fuel ops v k HP Hok Hf) as (s & rs & res & Hr & He); try done.
  { intros a b d Ha Hb. apply Hnan; set_solver. }
  exists s, rs, res. split; [done|].
  assert (e_id <$> res ≡ₚ live_ids ops) as ->.
  { apply submseteq_Permutation_length_eq.
    - rewrite fmap_length, (ek_count _ _ _ _ _ He).
      assert (length (live_ids ops) <= length (hist_ins ops)) by apply filter_length. lia.
    - apply NoDup_submseteq; [apply (ek_distinct _ _ _ _ _ He)|]. intros i (e & -> & Hi)%elem_of_list_fmap.
      by apply (ek_live _ _ _ _ _ He). }
  apply elem_of_list_filter. split; [by rewrite hist_del_in|]. by eapply hist_ins_in.
Qed.
Print Assumptions C19_own_vector_found_partial.

(** M = 2, MMax = 1, points 24, 7, 28, 18: the later inserts prune the only
    link to 7 (id 2).  It is stored, not deleted, and no search can find it. *)
Definition ex19_params (heur : bool) : hparams := HParams 2 1 16 16 heur Euclidean.
Definition ex19_hist : list iop :=
  [IInsert 0 [1103101952]%N 1; IInsert 0 [1088421888]%N 2; IInsert 0 [1105199104]%N 3; IInsert 0 [1099956224]%N 4]%N.
Theorem C19_own_vector_found_refuted :
  exists P n ops k level v id s rs res,
    params_ok P /\ hist_ok P n (ops ++ [ISearch v k]) /\ no_nan P (hist_vecs ops) /\
    length (hist_ins ops) <= hp_ef P /\ (Z.of_nat (length (hist_ins ops)) <= k)%Z /\
    IInsert level v id ∈ ops /\ IDelete id ∉ ops /\
    irun P (length (hist_ins ops)) (ops ++ [ISearch v k]) empty_st = Some (s, rs ++ [Val res]) /\ id ∉ e_id <$> res.
Proof.
  exists (ex19_params false), 1, ex19_hist, 4%Z, 0, [1088421888]%N, 2%N.
  assert (last_ids (irun (ex19_params false) (length (hist_ins ex19_hist)) (ex19_hist ++ [ISearch [1088421888]%N 4]) empty_st) = Some [4; 1; 3]%N) as H
    by by vm_compute.
  apply last_ids_inv in H as (s & rs & res & Hr & Hids). exists s, rs, res.
  split; [split; cbn; lia|]. split; [apply hist_ok_check; [done|]; by vm_compute|].
  split; [apply no_nan_check; by vm_compute|]. split; [vm_compute; lia|]. split; [by vm_compute|].
  split; [|split; [|split; [exact Hr|]]]; clear Hr.
  - repeat first [apply elem_of_list_here|apply elem_of_list_further].
  - rewrite <- hist_del_in. by apply not_elem_of_nil.
  - rewrite Hids. by apply (bool_decide_eq_true_1 (2%N ∉ [4; 1; 3]%N)).
Qed.
Print Assumptions C19_own_vector_found_refuted.

(** ** C21 *)
Theorem C21_k_hits_partial :
  forall P n fuel ops q k,
    params_ok P -> hist_ok P n (ops ++ [ISearch q k]) -> length (hist_ins ops) <= fuel ->
    no_nan P (q :: hist_vecs ops) -> hp_heuristic P = false ->
    length (hist_ins ops) <= S (hp_m P) -> length (hist_ins ops) <= S (hp_efc P) -> length (hist_ins ops) <= hp_ef P ->
    (k <= Z.of_nat (length (live_ids ops)))%Z ->
    exists s rs res, irun P fuel (ops ++ [ISearch q k]) empty_st = Some (s, rs ++ [Val res]) /\ Z.of_nat (length res) = k.
Proof.
  intros P n fuel ops q k HP Hok Hf Hnan Hheur HM Hefc Hef Hk.
  destruct (hok_search _ _ _ Hok ops q k [] eq_refl) as [_ Hk0].
  destruct (small_exact P n fuel ops q k HP Hok Hf Hnan Hheur HM Hefc Hef) as (s & rs & res & Hr & He).
  exists s, rs, res. split; [done|]. rewrite (ek_count _ _ _ _ _ He). lia.
Qed.
Print Assumptions C21_k_hits_partial.

(** ef = 1: the deleted nearest object takes the only place. *)
Definition ex21_params : hparams := HParams 2 2 8 1 false Euclidean.
Definition ex21_hist : list iop := [IInsert 0 [0]%N 1; IInsert 0 [1065353216]%N 2; IDelete 1]%N.
Theorem C21_k_hits_refuted :
  exists P n ops q k s rs,
    params_ok P /\ hist_ok P n (ops ++ [ISearch q k]) /\ no_nan P (q :: hist_vecs ops) /\
    (k <= Z.of_nat (length (live_ids ops)))%Z /\ (k <= Z.of_nat (hp_ef P))%Z /\ (0 < k)%Z /\
    irun P (length (hist_ins ops)) (ops ++ [ISearch q k]) empty_st = Some (s, rs ++ [Val []]).
Proof.
  exists ex21_params, 1, ex21_hist, [0]%N, 1%Z.
  assert (last_ids (irun ex21_params (length (hist_ins ex21_hist)) (ex21_hist ++ [ISearch [0]%N 1]) empty_st) = Some []) as H
    by by vm_compute.
  apply last_ids_inv in H as (s & rs & res & Hr & Hids). destruct res; [|done]. exists s, rs.
  split; [split; cbn; lia|]. split; [apply hist_ok_check; [done|]; by vm_compute|].
  split; [apply no_nan_check; by vm_compute|]. split; [by vm_compute|]. split; [by vm_compute|]. split; [lia|exact Hr].
Qed.
Print Assumptions C21_k_hits_refuted.

(** ** C32 *)
(** A dot product collection ranks the least similar vectors first, always:
    no hit is followed by one with a strictly smaller dot product. *)
Theorem C32_least_similar_first :
  forall P n fuel ops q k,
    params_ok P -> hp_dist P = DotProduct -> hist_ok P n (ops ++ [ISearch q k]) -> length (hist_ins ops) <= fuel ->
    no_nan P (q :: hist_vecs ops) ->
    exists s rs res, irun P fuel (ops ++ [ISearch q k]) empty_st = Some (s, rs ++ [Val res]) /\
      forall i j a b, i < j -> res !! i = Some a -> res !! j = Some b ->
        exists la va da lb vb db, IInsert la va (e_id a) ∈ ops /\ IInsert lb vb (e_id b) ∈ ops /\
          dot va q = Val da /\ dot vb q = Val db /\ SFltb db da = false.
Proof.
  intros P n fuel ops q k HP Hdot Hok Hf Hnan.
  destruct (C16_search_answers P n fuel ops q k HP Hok Hf Hnan) as (s & rs & res & Hr & He). exists s, rs, res. split; [done|].
  intros i j a b Hij Ha Hb.
  destruct (ans_stored _ _ _ _ _ He a) as (_ & la & va & Ia & Da); [by eapply elem_of_list_lookup_2|].
  destruct (ans_stored _ _ _ _ _ He b) as (_ & lb & vb & Ib & Db); [by eapply elem_of_list_lookup_2|].
  rewrite Hdot in Da, Db. exists la, va, (e_dist a), lb, vb, (e_dist b). split_and!; try done.
  pose proof (ans_sorted _ _ _ _ _ He) as Hs. clear He Hr. revert i j Hij Ha Hb. induction Hs as [|x l Hl IH Hx]; intros i j Hij Ha Hb; [done|].
  destruct j as [|j]; [lia|]. destruct i as [|i]; cbn in Ha, Hb.
  - injection Ha as ->. rewrite Forall_forall in Hx. apply Hx. by eapply elem_of_list_lookup_2.
  - apply (IH i j); [lia|done|done].
Qed.
Print Assumptions C32_least_similar_first.

(** Eight dimensions: (1,0,...) has dot product 1 with the query, (2,0,...) has
    2; the answer to k = 1 is the first. *)
Definition ex32_params : hparams := HParams 2 2 8 8 false DotProduct.
Definition e1 (x : N) : fvec := (x :: replicate 7 0)%N.
Definition ex32_hist : list iop := [IInsert 0 (e1 1065353216%N) 1; IInsert 0 (e1 1073741824%N) 2]%N.
Theorem C32_most_similar_first_refuted :
  exists P n ops q k s rs res,
    params_ok P /\ hp_dist P = DotProduct /\ hist_ok P n (ops ++ [ISearch q k]) /\ no_nan P (q :: hist_vecs ops) /\
    irun P (length (hist_ins ops)) (ops ++ [ISearch q k]) empty_st = Some (s, rs ++ [Val res]) /\
    exists l1 v1 d1 l2 v2 d2, IInsert l1 v1 1%N ∈ ops /\ IInsert l2 v2 2%N ∈ ops /\ dot v1 q = Val d1 /\ dot v2 q = Val d2 /\
      SFltb d1 d2 = true /\ e_id <$> res = [1; 2]%N.
Proof.
  exists ex32_params, 8, ex32_hist, (e1 1065353216%N), 2%Z.
  assert (last_ids (irun ex32_params (length (hist_ins ex32_hist)) (ex32_hist ++ [ISearch (e1 1065353216%N) 2]) empty_st) = Some [1; 2]%N) as H
    by by vm_compute.
  apply last_ids_inv in H as (s & rs & res & Hr & Hids). exists s, rs, res.
  split; [split; cbn; lia|]. split; [done|]. split; [apply hist_ok_check; [done|]; by vm_compute|].
  split; [apply no_nan_check; by vm_compute|]. split; [exact Hr|]. clear Hr.
  exists 0, (e1 1065353216%N), (f32_val 1065353216%N), 0, (e1 1073741824%N), (f32_val 1073741824%N).
  split; [repeat first [apply elem_of_list_here|apply elem_of_list_further]|].
  split; [repeat first [apply elem_of_list_here|apply elem_of_list_further]|].
  split; [by vm_compute|]. split; [by vm_compute|]. split; [by vm_compute|exact Hids].
Qed.
Print Assumptions C32_most_similar_first_refuted.

(** A vertex can also be missed while links lead to it: points 28, 31, 19, 25,
    24 with M = 2 and MMax = 1; the search for 19 (id 3) stops at 28's side. *)
Definition ex19b_hist : list iop :=
  [IInsert 0 [1105199104]%N 1; IInsert 0 [1106771968]%N 2; IInsert 0 [1100480512]%N 3; IInsert 0 [1103626240]%N 4;
   IInsert 0 [1103101952]%N 5]%N.
Theorem C19_reachable_but_not_found_refuted :
  exists P n ops k level v id s rs res,
    params_ok P /\ hist_ok P n (ops ++ [ISearch v k]) /\ no_nan P (hist_vecs ops) /\
    length (hist_ins ops) <= hp_ef P /\ (Z.of_nat (length (hist_ins ops)) <= k)%Z /\
    IInsert level v id ∈ ops /\ IDelete id ∉ ops /\
    irun P (length (hist_ins ops)) (ops ++ [ISearch v k]) empty_st = Some (s, rs ++ [Val res]) /\
    all_reachable s /\ id ∉ e_id <$> res.
Proof.
  exists (ex19_params false), 1, ex19b_hist, 5%Z, 0, [1100480512]%N, 3%N.
  assert (last_ids (irun (ex19_params false) (length (hist_ins ex19b_hist)) (ex19b_hist ++ [ISearch [1100480512]%N 5]) empty_st) = Some [5; 4; 1; 2]%N) as H
    by by vm_compute.
  assert (match irun (ex19_params false) (length (hist_ins ex19b_hist)) (ex19b_hist ++ [ISearch [1100480512]%N 5]) empty_st with
    | Some (s, _) => bool_decide (dom (nodes s) ⊆ reached 3 s) | None => false end = true) as Hreach by by vm_compute.
  apply last_ids_inv in H as (s & rs & res & Hr & Hids). rewrite Hr in Hreach. exists s, rs, res.
  split; [split; cbn; lia|]. split; [apply hist_ok_check; [done|]; by vm_compute|].
  split; [apply no_nan_check; by vm_compute|]. split; [vm_compute; lia|]. split; [by vm_compute|].
  split; [repeat first [apply elem_of_list_here|apply elem_of_list_further]|].
  split; [rewrite <- hist_del_in; by apply not_elem_of_nil|]. split; [exact Hr|]. clear Hr.
  split; [by eapply reached_all|]. rewrite Hids. by apply (bool_decide_eq_true_1 (3%N ∉ [5; 4; 1; 2]%N)).
Qed.
Print Assumptions C19_reachable_but_not_found_refuted.

(** ** A concrete case *)
(** Four points on two layers, one of them deleted, M = 3: the hypotheses of
    C18, C19 and C21 hold. *)
Definition ex_small_params : hparams := HParams 3 2 3 4 false Euclidean.
Definition ex_small_hist : list iop :=
  [IInsert 0 [1082130432]%N 1; IInsert 1 [1109131264]%N 2; IDelete 1; IInsert 0 [1108606976]%N 3; IInsert 1 [1108344832]%N 4]%N.
Example C18_case :
  params_ok ex_small_params /\ hist_ok ex_small_params 1 (ex_small_hist ++ [ISearch [1109131264]%N 2]) /\
  no_nan ex_small_params ([1109131264]%N :: hist_vecs ex_small_hist) /\ hp_heuristic ex_small_params = false /\
  length (hist_ins ex_small_hist) = S (hp_m ex_small_params) /\ length (hist_ins ex_small_hist) = S (hp_efc ex_small_params) /\
  length (hist_ins ex_small_hist) = hp_ef ex_small_params /\ length (live_ids ex_small_hist) = 3 /\
  last_ids (irun ex_small_params 4 (ex_small_hist ++ [ISearch [1109131264]%N 2]) empty_st) = Some [2; 3]%N.
Proof.
  split; [split; cbn; lia|]. split; [apply hist_ok_check; [done|]; by vm_compute|].
  split; [apply no_nan_check; by vm_compute|]. repeat (split; [by vm_compute|]). by vm_compute.
Qed.
