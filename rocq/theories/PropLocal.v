(** Where a search stops: C67. *)
From stdpp Require Import sorting.
From Verif Require Import GoBase FloatModel HeapModel ProgModel StateModel WalModel HnswModel CollModel
  ProofBase CodecProofs FloatProofs HeapProofs WpProofs HnswProofs IndexProofs StepProofs SeqLog IndexHist CallProofs HistProofs
  SimProofs WalProofs StoreView RestoreProofs ExactProofs PropIndex LinkProofs PropLink LocalProofs.
From Coq Require Import SpecFloat.
Open Scope nat_scope.

(** No neighbour of [e] on layer [l] is nearer to [q]. *)
Definition local_optimum (P : hparams) (s : st) (q : fvec) (l : nat) (e : elem) : Prop :=
  forall v cs c w d, nodes s !! e_id e = Some v -> v_conns v !! l = Some cs -> c ∈ cs -> nodes s !! c = Some w ->
    dist_func (hp_dist P) (v_vec w) q = Val d -> SFltb d (e_dist e) = false.
Definition no_nan_in (P : hparams) (s : st) (q : fvec) : Prop :=
  forall v w d, in_play s q v -> in_play s q w -> dist_func (hp_dist P) v w = Val d -> d <> S754_nan.

Lemma index_ok_layer P n s q l : index_ok P n s -> no_nan_in P s q ->
  closed_at (on_layer s l) l s /\ numbers P (on_layer s l) q s /\ forall e, is_vertex P s q l e -> egood P (on_layer s l) q s e.
Proof.
  intros Hok Hnan. destruct (iok_refs _ _ _ Hok) as [Href _].
  assert (forall i v d, nodes s !! i = Some v -> dist P (v_vec v) q = Val d -> num d) as Hnum.
  { intros i v d Hv Hd. apply num_nan. eapply (Hnan (v_vec v) q); [right; by exists i, v|by left|exact Hd]. }
  split_and!.
  - intros i v cs c _ Hv Hcs Hc. apply on_layer_in. by eapply Href.
  - intros i v d _. apply Hnum.
  - intros e (v & Hv & Hl & Hd). split_and!; [apply on_layer_in; by exists v|by eapply Hnum|by exists v].
Qed.

(** Every layer search ends at a vertex none of whose neighbours is nearer. *)
Theorem C67_layer_search_local_optimum : forall P n s q eps ef l fuel near best,
  index_ok P n s -> no_nan_in P s q -> eps <> [] -> 1 <= ef -> Forall (is_vertex P s q l) eps ->
  exec (search_layer P 0 fuel q eps ef l) s = Some (s, Val near) ->
  best ∈ near -> (forall e, e ∈ near -> not_further best e) -> local_optimum P s q l best.
Proof.
  intros P n s q eps ef l fuel near best Hok Hnan Hne Hef Hev Hx Hb Hmin.
  destruct (index_ok_layer P n s q l Hok Hnan) as (Hcl & Hnum & Hg). rewrite Forall_forall in Hev.
  intros v cs c w d. apply (layer_climbing P 0 (on_layer s l) q ef l s Hef Hnum Hcl fuel eps s near Hx); auto.
Qed.
Print Assumptions C67_layer_search_local_optimum.

(** So does Search: the first hit, unless that vertex is deleted. *)
Theorem C67_search_local_optimum : forall P n s q k fuel,
  params_ok P -> index_ok P n s -> dim_ok (hp_dist P) n -> length q = n -> no_nan_in P s q ->
  nodes s <> ∅ -> size (nodes s) <= fuel -> (0 < k)%Z ->
  exists res best, exec (hnsw_search P 0 fuel q k) s = Some (s, Val res) /\
    is_vertex P s q 0 best /\ local_optimum P s q 0 best /\ (forall e, e ∈ res -> not_further best e) /\
    (e_id best ∉ deleted s -> head res = Some best).
Proof.
  intros P n s q k fuel HP Hok Hk Hq Hnan Hne Hf Hk0.
  set (okv := fun v : fvec => length v = n /\ in_play s q v).
  pose proof (index_ok_Inv _ _ _ q Hok) as HI.
  assert (okv q) as Hq' by (split; [done|by left]).
  assert (forall v1 v2, okv v1 -> okv v2 -> exists d, dist P v1 v2 = Val d) as Hdist.
  { intros v1 v2 [H1 _] [H2 _]. by eapply dist_total. }
  assert (size (dom (nodes s)) <= fuel) as Hf' by (by rewrite size_dom).
  destruct (seq_search P okv (dom (nodes s)) 0 Hdist (pok_deg _ HP) fuel q k s (pok_ef _ HP) HI (iok_free _ _ _ Hok) Hq' Hne Hf') as (near0 & Hx & _); [lia|].
  set (res := take _ _) in Hx. clearbody res. exists res. pose proof Hx as Hx0. unfold hnsw_search in Hx.
  destruct (k <? 0)%Z eqn:Ek; [lia|].
  destruct (iok_refs _ _ _ Hok) as [Href Hep]. destruct (Hep Hne) as (epv & Hepv & Hepl).
  apply exec_bind_val in Hx as (s1 & [[epid epv'] cur] & Hr & Hx). unfold read_entry in Hr. rewrite exec_act in Hr.
  apply Some_pair_inj in Hr as [<- Hr]. rewrite Hepv in Hr. cbn [or_pan mbind out_bind] in Hr. apply Val_inj in Hr.
  apply pair_inj in Hr as [Hr <-]. apply pair_inj in Hr as [<- <-].
  apply exec_bind_val in Hx as (s1 & d & Hd & Hx). rewrite exec_lift in Hd. apply Some_pair_inj in Hd as [<- Hd].
  apply exec_bind_val in Hx as (s1 & e & He & Hx).
  destruct (index_ok_layer P n s q 0 Hok Hnan) as (Hcl & Hnum & Hg).
  destruct (descend_searching P 0 fuel (on_layer s) _ _ _ _ _ _ _ He) as (-> & Hee).
  { intros m _ _. by apply (index_ok_layer P n s q m). } { intros m i (v & Hv & Hl)%on_layer_in. apply on_layer_in. exists v. split; [done|lia]. }
  { split; [apply on_layer_in; exists epv; split; [done|cbn; lia]|]. by exists epv. }
  rewrite Nat.min_0_r in Hee. destruct Hee as (HeX & ve & Hve & Hde).
  assert (egood P (on_layer s 0) q s e) as Heg by (split_and!; [done|by eapply Hnum|by exists ve]).
  apply exec_bind_val in Hx as (s1 & near & Hn & Hx). pose proof (pure_search_layer P 0 fuel _ _ _ _ _ _ _ Hn) as ->.
  apply exec_bind_val in Hx as (s1 & dels & Hdl & Hx). rewrite exec_act in Hdl. apply Some_pair_inj in Hdl as [<- Hdl]. apply Val_inj in Hdl. subst dels.
  rewrite exec_lift in Hx. apply Some_pair_inj in Hx as [_ Hx].
  destruct (layer_searching P 0 fuel (on_layer s 0) _ _ _ _ _ _ _ Hn) as (_ & Hin & Hnd & Hnn & Hlen);
    [done|by intros ? ->%elem_of_list_singleton; split; [|exists ve]|apply NoDup_singleton|done|apply (pok_ef _ HP)|].
  pose proof (layer_climbing P 0 (on_layer s 0) q (hp_ef P) 0 s (pok_ef _ HP) Hnum Hcl fuel _ _ _ Hn) as Hsum.
  specialize (Hsum ltac:(by intros ? ->%elem_of_list_singleton) ltac:(done)).
  pose proof (heap_init_perm min_less near) as Hperm. change (new_min_heap near) with (heap_init min_less near) in Hx.
  rewrite take_live_ok in Hx by (by rewrite Hperm). apply Val_inj in Hx.
  assert (Hdr : drain (length near) (heap_init min_less near) ≡ₚ near) by (rewrite drain_perm; [done|by rewrite Hperm]).
  assert (Forall enum near) as Hen.
  { apply Forall_forall. intros e0 He0. destruct (Hin e0 He0) as (HX0 & v0 & Hv0 & Hd0). by eapply Hnum. }
  assert (Hss : StronglySorted nearer_eq (drain (length near) (heap_init min_less near))).
  { apply drain_sorted; [by rewrite Hperm|]. by apply (heap_init_ok min_less enum min_less_irr min_less_asym min_less_ntrans). }
  destruct (drain (length near) (heap_init min_less near)) as [|best dr] eqn:Edr; [by apply Permutation_nil_l in Hdr|].
  assert (Hbin : best ∈ near) by (rewrite <- Hdr; by left).
  assert (Hmin : forall e0, e0 ∈ near -> not_further best e0).
  { intros e0 He0. rewrite <- Hdr in He0. apply elem_of_cons in He0 as [->|He0]; [apply fltb_irrefl|].
    apply StronglySorted_inv in Hss as [_ Hss]. rewrite Forall_forall in Hss. by apply Hss. }
  exists best. split_and!; [done| | | |].
  - destruct (Hin best Hbin) as ((v0 & Hv0 & Hl0)%on_layer_in & v1 & Hv1 & Hd1). exists v1. rewrite Hv1 in Hv0. injection Hv0 as ->. done.
  - intros v cs c w d0. apply Hsum; [done|exact Hmin].
  - intros e0 He0. apply Hmin. rewrite <- Hdr. subst res. apply elem_of_take in He0 as (j & He0 & _).
    by apply elem_of_list_lookup_2, elem_of_list_filter in He0 as [_ He0].
  - intros Hlive. rewrite filter_cons, decide_True in Hx by done. subst res. destruct (Z.to_nat k) eqn:Ez; [lia|done].
Qed.
Print Assumptions C67_search_local_optimum.

(** ** Concrete cases *)
Lemma no_nan_in_check P s q : nan_free P (q :: (v_vec <$> (map_to_list (nodes s)).*2)) = true -> no_nan_in P s q.
Proof.
  intros H v w d Hv Hw. assert (forall x, in_play s q x -> x ∈ q :: (v_vec <$> (map_to_list (nodes s)).*2)) as Hin.
  { intros x [->|(i & y & Hy & ->)]; [by left|]. right. apply elem_of_list_fmap. exists y. split; [done|].
    apply elem_of_list_fmap. exists (i, y). by rewrite elem_of_map_to_list. }
  apply (no_nan_check _ _ H); auto.
Qed.
(** The best hit for 2.5 is vertex 13; its neighbours are 12 (deleted) at 2
    and 14 at 5. *)
Definition c67_query : fvec := [1075838976]%N.
Example C67_case : params_ok ex_params /\ index_ok ex_params 1 ex_st /\ dim_ok Euclidean 1 /\ no_nan_in ex_params ex_st c67_query /\
  nodes ex_st <> ∅ /\ size (nodes ex_st) <= 6 /\
  (fun '(_, r) => match r with Val res => e_id <$> res | _ => [] end) <$> exec (hnsw_search ex_params 0 6 c67_query 2) ex_st = Some [13; 11]%N /\
  (nodes ex_st !! 13%N ≫= fun v => v_conns v !! 0) = Some [12; 14]%N.
Proof.
  split_and!; [apply ex_params_ok|apply ex_st_ok|done|apply no_nan_in_check; by vm_compute| |vm_compute; lia| |].
  - intros E. assert (size (nodes ex_st) = 0) as Hz by by rewrite E. by vm_compute in Hz.
  - by vm_compute.
  - by vm_compute.
Qed.
