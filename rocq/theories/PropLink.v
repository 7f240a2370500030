(** The graph an insert leaves: neighbour lists name other vertices, each once
    (C65), and how one insert changes them (C66). *)
From stdpp Require Import relations sorting.
From Verif Require Import GoBase FloatModel HeapModel ProgModel StateModel WalModel HnswModel CollModel
  ProofBase CodecProofs FloatProofs HeapProofs WpProofs HnswProofs IndexProofs StepProofs SeqLog IndexHist CallProofs HistProofs
  SimProofs WalProofs StoreView RestoreProofs ExactProofs PropIndex PropPar LinkProofs.
From Coq Require Import SpecFloat.
Open Scope nat_scope.

(** ** Small specifications *)
(** No neighbour list has a vertex twice, or the vertex it belongs to. *)
Definition neighbours_ok (s : st) : Prop :=
  forall id v l cs, nodes s !! id = Some v -> v_conns v !! l = Some cs -> NoDup cs /\ id ∉ cs.
(** The longest list of layer [l] that is extended and not pruned. *)
Definition full_at (P : hparams) (l : nat) : nat := if l =? 0 then 2 * hp_mMax P else hp_mMax P.

(** Inserting [id] into [s]: [ns l] are its neighbours on layer [l]. *)
Record insert_links (P : hparams) (s : st) (level : nat) (vec : fvec) (id : N) (ns : nat -> list N) (s' : st) : Prop := MkInsertLinks {
  (** on the layers both it and the index have, a choice (LinkProofs.picks,
      as in C25) among vertices found on that layer; *)
  il_chosen : forall l, l <= Nat.min level (maxl s) -> exists near, near <> [] /\ length near <= hp_efc P /\
    NoDup (e_id <$> near) /\ Forall (is_vertex P s vec l) near /\ picks P s near (hp_m P) (ns l);
  il_above : forall l, Nat.min level (maxl s) < l -> ns l = [];
  (** this is what is stored for the new vertex; *)
  il_new : nodes s' !! id = Some (Vertex (ns <$> seq 0 (S level)) vec None);
  (** another vertex keeps its vector and its layers, and the list of every
      layer for which it was not chosen; a list for which it was chosen gets
      the new vertex at its end or, if it is full, is chosen anew among its
      members and the new vertex; *)
  il_others : forall n v, n <> id -> nodes s !! n = Some v -> exists v', nodes s' !! n = Some v' /\ v_vec v' = v_vec v /\
    length (v_conns v') = length (v_conns v) /\
    forall l cs, v_conns v !! l = Some cs -> exists cs', v_conns v' !! l = Some cs' /\
      (n ∉ ns l -> cs' = cs) /\ (n ∈ ns l -> relinked P s' v vec id (full_at P l) cs cs');
  il_dom : dom (nodes s') = {[id]} ∪ dom (nodes s);
  (** the entry point is the new vertex if that is higher. *)
  il_entry : (ep s', maxl s') = if maxl s <? level then (id, level) else (ep s, maxl s);
  il_deleted : deleted s' = deleted s
}.

Definition on_layer (s : st) (l : nat) : gset N := dom (filter (fun p => l < length (v_conns p.2)) (nodes s)).
Lemma on_layer_in s l n : n ∈ on_layer s l <-> exists v, nodes s !! n = Some v /\ l < length (v_conns v).
Proof.
  unfold on_layer. rewrite elem_of_dom. split.
  - intros [v Hv]. apply map_filter_lookup_Some in Hv as [Hv Hl]. by exists v.
  - intros (v & Hv & Hl). exists v. by apply map_filter_lookup_Some.
Qed.

(** ** C66 *)
Theorem C66_insert_links : forall P n s level vec id fuel,
  params_ok P -> index_ok P n s -> dim_ok (hp_dist P) n -> length vec = n -> neighbours_ok s ->
  nodes s <> ∅ -> nodes s !! id = None -> size (nodes s) < fuel ->
  exists s' ns, exec (hnsw_insert P 0 fuel level vec id) s = Some (s', Val tt) /\ insert_links P s level vec id ns s'.
Proof.
  intros P n s level vec id fuel HP Hok Hk Hvec Hnb Hne Hnew Hf.
  set (okv := fun v : fvec => length v = n). set (U := {[id]} ∪ dom (nodes s) : gset N).
  assert (Hdist : forall v1 v2, okv v1 -> okv v2 -> exists d, dist P v1 v2 = Val d) by (intros v1 v2 H1 H2; by eapply dist_total).
  assert (HI : Inv P false okv U s).
  { destruct (index_ok_Inv P n s vec Hok) as [I1 I2 I3 I4 I5 I6 I7]. split; try done.
    - intros i v Hv. by destruct (I3 i v Hv).
    - intros i Hi. apply I7 in Hi. set_solver. }
  assert (HU : size U <= fuel). { unfold U. rewrite size_union by (apply disjoint_singleton_l, not_elem_of_dom; done). rewrite size_singleton, size_dom. lia. }
  destruct (seq_insert P okv U 0 Hdist (pok_deg _ HP) fuel level vec id s (pok_efc _ HP) HI (iok_free _ _ _ Hok) Hvec ltac:(set_solver) Hnew HU)
    as (s' & Hx & HI' & Hun & Hext & Hfr & _ & Honly).
  exists s'. pose proof Hx as Hx0. unfold hnsw_insert in Hx.
  apply exec_bind_val in Hx as (s1 & first & H1 & Hx). unfold once_insert in H1. rewrite enc_set_entry_eq, enc_add_vertex_eq, exec_act in H1.
  assert (first = false /\ nodes s1 = nodes s /\ same_top s s1) as (-> & N1 & T1).
  { destruct (once s).
    - apply Some_pair_inj in H1 as [<- H1]. apply Val_inj in H1. by subst first.
    - cbn zeta in H1. change (nodes (set_once true s)) with (nodes s) in H1. case_bool_decide; [done|].
      apply Some_pair_inj in H1 as [<- H1]. apply Val_inj in H1. by subst first. }
  clear H1.
  apply exec_bind_val in Hx as (s2 & [] & Hw & Hx). rewrite enc_add_vertex_eq in Hw. cbn [wal_write] in Hw. rewrite exec_act in Hw.
  apply Some_pair_inj in Hw as [<- _].
  apply exec_bind_val in Hx as (s3 & [] & Ha & Hx). unfold add_node in Ha. rewrite exec_act in Ha. apply Some_pair_inj in Ha as [E3 _].
  assert (nodes s3 = <[id := Vertex (init_conns level) vec None]> (nodes s)) as N3 by (rewrite <- E3; cbn; by rewrite N1).
  assert (same_top s s3) as T3 by (rewrite <- E3; exact T1). clear E3.
  destruct (iok_refs _ _ _ Hok) as [Href Hep]. destruct (Hep Hne) as (epv & Hepv & Hepl).
  assert (ep s <> id) as Hei by (intros E; rewrite E in Hepv; congruence).
  apply exec_bind_val in Hx as (s4 & [[epid epv'] cur] & Hr & Hx). unfold read_entry in Hr. rewrite exec_act in Hr.
  apply Some_pair_inj in Hr as [<- Hr]. destruct T3 as [P3 M3]. rewrite P3, M3, N3, lookup_insert_ne, Hepv in Hr by done.
  cbn [or_pan mbind out_bind] in Hr. apply Val_inj in Hr. apply pair_inj in Hr as [Hr <-]. apply pair_inj in Hr as [<- <-].
  apply exec_bind_val in Hx as (s4 & d & Hd & Hx). rewrite exec_lift in Hd. apply Some_pair_inj in Hd as [<- Hd].
  apply exec_bind_val in Hx as (s4 & e & He & Hx).
  set (X := on_layer s).
  assert (HXid : forall m, id ∉ X m) by (intros m (v & Hv & _)%on_layer_in; congruence).
  assert (HXne : forall m i, i ∈ X m -> i <> id) by (intros m i Hi ->; by apply (HXid m)).
  assert (HXmono : forall m, X (S m) ⊆ X m).
  { intros m i (v & Hv & Hl)%on_layer_in. apply on_layer_in. exists v. split; [done|lia]. }
  assert (Hback : forall i m, i ∈ X m -> nodes s3 !! i = nodes s !! i).
  { intros i m Hi. rewrite N3, lookup_insert_ne; [done|]. intros E. by apply (HXne m i). }
  assert (Hcl : forall m, closed_at (X m) m s3).
  { intros m i v cs c Hi Hv Hcs Hc. rewrite (Hback i m Hi) in Hv. apply on_layer_in. by eapply Href. }
  destruct (descend_searching P 0 fuel X _ _ _ _ _ _ _ He) as (-> & Hee); [by auto|done| |].
  { split; [apply on_layer_in; exists epv; split; [done|lia]|]. exists epv. cbn [e_id e_dist]. split; [by rewrite N3, lookup_insert_ne|done]. }
  apply exec_bind_val in Hx as (s5 & [] & Hc & Hx).
  destruct (construct_ok P 0 fuel X _ _ _ _ _ _ Hc) as (ns & [Ca Cc Co Cn Cv [Ct Ct']]).
  { split; try done.
    - intros m i Hm Hi. pose proof Hi as Hi'. apply on_layer_in in Hi' as (v & Hv & Hl). exists v. by rewrite (Hback i m Hi).
    - intros m i v cs Hm Hi Hv Hcs. rewrite (Hback i m Hi) in Hv. by destruct (Hnb i v m cs Hv Hcs).
    - intros a b va vb Ha Hb. assert (forall i v, nodes s3 !! i = Some v -> okv (v_vec v)) as H3.
      { intros i v. rewrite N3. destruct (decide (i = id)) as [->|Hi]; [rewrite lookup_insert; by intros [= <-]|].
        rewrite lookup_insert_ne by done. apply (iok_dim _ _ _ Hok). }
      by apply Hdist; eapply H3.
    - eexists. rewrite N3, lookup_insert. split; [done|]. cbn [v_conns]. rewrite init_conns_length. lia. }
  { by intros ? ->%elem_of_list_singleton. } { apply NoDup_singleton. } { done. } { apply (pok_efc _ HP). }
  assert (Hend : nodes s' = nodes s5 /\ (ep s', maxl s') = if maxl s <? level then (id, level) else (ep s, maxl s)).
  { unfold raise_entry in Hx. rewrite enc_set_entry_eq, exec_act in Hx. destruct (maxl s <? level); apply Some_pair_inj in Hx as [<- _]; [done|].
    split; [done|]. by rewrite Ct, Ct', P3, M3. }
  destruct Hend as [N' Etop]. replace (Nat.min (maxl s) level) with (Nat.min level (maxl s)) in * by lia.
  assert (Hs3 : forall i, i <> id -> nodes s3 !! i = nodes s !! i) by (intros i Hi; rewrite N3; by rewrite lookup_insert_ne).
  assert (Sv' : same_vecs s3 s') by (eapply same_vecs_trans; [exact Cv|by apply same_vecs_nodes]).
  exists ns. split; [done|]. split.
  - intros l Hl. destruct (Cc l Hl) as (near & G1 & G2 & G3 & G4 & G5). exists near. split_and!; [done..| |].
    + apply Forall_forall. intros e0 He0. destruct (G4 e0 He0) as (HX0 & v & Hv & Hdv). rewrite (Hback _ _ HX0) in Hv.
      apply on_layer_in in HX0 as (v0 & Hv0 & Hl0). rewrite Hv in Hv0. injection Hv0 as <-. by exists v.
    + destruct G5 as (Q1 & Q2 & Q3 & Q4 & Q5). split_and!; [done..|]. intros Hnn. specialize (Q5 Hnn). destruct (hp_heuristic P); [|done].
      destruct Q5 as (order & Ho & Hs & Hsub & Hi). exists order. split_and!; [done..|]. intros i e0 He0. cbn zeta. rewrite (Hi i e0 He0). cbn zeta.
      assert (Hin : forall e1, e1 ∈ order -> nodes s3 !! e_id e1 = nodes s !! e_id e1).
      { intros e1 He1. rewrite Ho in He1. destruct (G4 e1 He1) as (HX0 & _). by apply (Hback _ l). }
      assert (Hsh : forall r, r ∈ filter (fun x => x ∈ ns l) (e_id <$> take i order) -> shadows P s3 r e0 <-> shadows P s r e0).
      { intros r (_ & Hr)%elem_of_list_filter. apply elem_of_list_fmap in Hr as (e1 & -> & He1).
        apply elem_of_take in He1 as (j & Hj & _). apply elem_of_list_lookup_2 in Hj, He0. unfold shadows. by rewrite (Hin e1 Hj), (Hin e0 He0). }
      split; intros [Hl1 Hr1]; (split; [done|]); intros r Hr Hs1; apply (Hr1 r Hr); by apply (Hsh r Hr).
  - intros l Hl. by apply Ca.
  - destruct (Cn (Vertex (init_conns level) vec None)) as (vi & Hvi & Evi & Lvi & Cvi); [rewrite N3; apply lookup_insert|].
    rewrite N', Hvi. destruct vi as [cs vc lk]. cbn [v_vec v_conns] in *. subst vc. do 2 f_equal; [|apply (Hun id {| v_conns := cs; v_vec := vec; v_lock := lk |}); by rewrite N'].
    apply list_eq. intros m. rewrite Cvi, list_lookup_fmap. destruct (decide (m <= Nat.min level (maxl s))) as [Hm|Hm].
    + rewrite lookup_seq_lt by lia. done.
    + destruct (decide (m <= level)) as [Hm'|Hm'].
      * rewrite lookup_seq_lt by lia. cbn. rewrite Ca by lia. destruct (init_conns level !! m) as [c|] eqn:Ec.
        -- by rewrite (init_conns_lookup _ _ _ Ec).
        -- apply lookup_ge_None in Ec. rewrite init_conns_length in Ec. lia.
      * rewrite lookup_seq_ge by lia. cbn. apply lookup_ge_None. rewrite init_conns_length. lia.
  - intros i v Hi Hv. rewrite <- Hs3 in Hv by done. destruct (Co i v Hi Hv) as (v' & Hv' & Ev & El & Hcc). exists v'. rewrite N'. split_and!; [done..|].
    intros l cs Hcs. destruct (Hcc l cs Hcs) as (cs' & R1 & R2 & R3). exists cs'. split_and!; [done..|]. intros Hin.
    specialize (R3 Hin). assert (bound P l = full_at P l) as <- by (by destruct l). eapply relinked_vecs; [exact Sv'|reflexivity|exact R3].
  - apply set_eq. intros i. rewrite elem_of_union, elem_of_singleton, !elem_of_dom.
    specialize (Sv' i). destruct (decide (i = id)) as [->|Hi].
    + rewrite N3, lookup_insert in Sv'. split; [by left|]. intros _. destruct (nodes s' !! id); [by eexists|done].
    + rewrite Hs3 in Sv' by done. destruct (nodes s' !! i), (nodes s !! i); try done; split; [intros _; right; by eexists|intros _; by eexists|by intros [? ?]|intros [?|[? ?]]; done].
  - done.
  - apply Hfr.
Qed.
Print Assumptions C66_insert_links.

(** The first vertex is on layer 0 only, whatever level was drawn. *)
Theorem C66_first_insert : forall P n s level vec id fuel,
  index_ok P n s -> nodes s = ∅ ->
  exists s', exec (hnsw_insert P 0 fuel level vec id) s = Some (s', Val tt) /\
    nodes s' = {[id := Vertex [[]] vec None]} /\ ep s' = id /\ maxl s' = 0 /\ deleted s' = deleted s.
Proof.
  intros P n s level vec id fuel Hok He. unfold hnsw_insert. rewrite exec_bind. unfold once_insert. rewrite enc_set_entry_eq, enc_add_vertex_eq, exec_act.
  destruct (once s) eqn:Eo; [by destruct (iok_once _ _ _ Hok Eo)|]. cbn zeta. change (nodes (set_once true s)) with (nodes s).
  rewrite bool_decide_true by done. eexists. split; [reflexivity|]. cbn. rewrite He. split_and!; [|done..]. apply insert_empty.
Qed.
Print Assumptions C66_first_insert.

(** What is left of the clauses when an insert keeps the lists proper. *)
Lemma insert_links_neighbours P n s level vec id ns s' :
  index_ok P n s -> neighbours_ok s -> nodes s !! id = None -> insert_links P s level vec id ns s' -> neighbours_ok s'.
Proof.
  intros Hok Hnb Hnew [Lc La Ln Lo Ld _ _] i v l cs Hv Hcs. destruct (iok_refs _ _ _ Hok) as [Href _].
  destruct (decide (i = id)) as [->|Hi].
  - assert (v = Vertex (ns <$> seq 0 (S level)) vec None) as -> by congruence. cbn [v_conns] in Hcs. rewrite list_lookup_fmap in Hcs.
    destruct (seq 0 (S level) !! l) as [m|] eqn:Em; [|done]. apply lookup_seq in Em as [-> Hm]. cbn in Hcs. injection Hcs as <-. change (0 + l) with l.
    destruct (decide (l <= Nat.min level (maxl s))) as [Hl|Hl]; [|rewrite La by lia; split; [constructor|by intros ?%elem_of_nil]].
    destruct (Lc l Hl) as (near & _ & _ & _ & Hver & (Hnd & _ & Hin & _)). split; [done|].
    intros Hid%Hin. apply elem_of_list_fmap in Hid as (e & -> & He). rewrite Forall_forall in Hver. destruct (Hver e He) as (w & Hw & _). congruence.
  - assert (is_Some (nodes s !! i)) as [v0 Hv0].
    { apply elem_of_dom. assert (i ∈ dom (nodes s')) as H by (by eapply elem_of_dom_2). rewrite Ld in H. set_solver. }
    destruct (Lo i v0 Hi Hv0) as (v' & Hv' & _ & El & Hcc). rewrite Hv in Hv'. injection Hv' as <-.
    destruct (v_conns v0 !! l) as [cs0|] eqn:Ec0; [|apply lookup_ge_None in Ec0; apply lookup_lt_Some in Hcs; lia].
    destruct (Hcc l cs0 Ec0) as (cs' & Hcs' & R1 & R2). rewrite Hcs in Hcs'. injection Hcs' as <-.
    destruct (Hnb i v0 l cs0 Hv0 Ec0) as [Hnd0 Hni0].
    assert (id ∉ cs0) as Hid0. { intros Hc. destruct (Href i v0 l cs0 id Hv0 Ec0 Hc) as (w & Hw & _). congruence. }
    destruct (decide (i ∈ ns l)) as [Hin|Hin]; [|by rewrite (R1 Hin)].
    destruct (R2 Hin) as [S1 S2]. destruct (decide (length cs0 < full_at P l)) as [Hlt|Hge].
    + rewrite (S1 Hlt). split.
      * apply NoDup_app. split_and!; [done| |apply NoDup_singleton]. by intros x Hx ->%elem_of_list_singleton.
      * rewrite elem_of_app, elem_of_list_singleton. tauto.
    + destruct S2 as (d & es & _ & Hes & (Hnd & _ & Hin' & _)); [lia|]. split; [done|]. intros Hi'%Hin'. cbn in Hi'.
      assert (e_id <$> es = cs0) as Ees. { clear -Hes. induction Hes as [|c e cs es (E & _) _ IH]; [done|]. cbn. by rewrite E, IH. }
      rewrite Ees in Hi'. apply elem_of_cons in Hi' as [->|Hi']; done.
Qed.

(** ** C65 *)
(** Calls made one at a time keep every neighbour list proper. *)
Theorem C65_neighbours_partial : forall P n fuel ops s rs,
  params_ok P -> hist_ok P n ops -> length (hist_ins ops) <= fuel ->
  irun P fuel ops empty_st = Some (s, rs) -> neighbours_ok s.
Proof.
  intros P n fuel ops. induction ops as [|o ops IH] using rev_ind; intros s rs HP Hok Hf Hr.
  { injection Hr as <- <-. intros id v l cs Hv. done. }
  rewrite irun_app in Hr. destruct (irun P fuel ops empty_st) as [[s1 rs1]|] eqn:E1; [|done]. cbn [irun] in Hr.
  destruct (exec (iop_prog P fuel o) s1) as [[s2 r]|] eqn:E2; [|done]. injection Hr as <- <-.
  assert (Hok1 : hist_ok P n ops) by by eapply hist_ok_prefix.
  rewrite hist_ins_app, app_length in Hf.
  assert (Hnb : neighbours_ok s1) by (eapply IH; [done|done|lia|reflexivity]).
  pose proof (reachable_index_ok P n fuel ops s1 rs1 HP Hok1 ltac:(lia) E1) as Hio.
  destruct (irun_new P n (fun v : fvec => length v = n) fuel ops) as (s0 & rs0 & Hr0 & _ & _ & HI & _); try done.
  { intros v1 v2. apply dist_total. apply Hok. } { apply Hok1. } { lia. }
  rewrite E1 in Hr0. injection Hr0 as <- <-.
  destruct o as [level vec id|id|q k]; cbn [iop_prog] in E2.
  - assert (Hnew : nodes s1 !! id = None).
    { destruct (nodes s1 !! id) as [v|] eqn:Ev; [|done]. exfalso. destruct (hi_back _ _ _ _ _ HI id v Ev) as (lv & Hin & _).
      pose proof (hok_ids _ _ _ Hok) as Hnd. rewrite hist_ins_app in Hnd. apply NoDup_app in Hnd as (_ & Hnd & _).
      apply (Hnd id); [by eapply hist_ins_in|cbn; set_solver]. }
    assert (Hsz : size (nodes s1) < fuel).
    { assert (dom (nodes s1) ⊆ list_to_set (hist_ins ops)) as Hsub.
      { intros i [v Hv]%elem_of_dom. destruct (hi_back _ _ _ _ _ HI i v Hv) as (lv & Hin & _). apply elem_of_list_to_set. by eapply hist_ins_in. }
      apply subseteq_size in Hsub. rewrite size_dom, size_list_to_set in Hsub by apply (hok_ids _ _ _ Hok1). cbn in Hf. lia. }
    assert (Hlv : length vec = n). { apply (hok_dim _ _ _ Hok). rewrite hist_vecs_app. cbn. set_solver. }
    rewrite exec_bind in E2. destruct (decide (nodes s1 = ∅)) as [He|Hne].
    + destruct (C66_first_insert P n s1 level vec id fuel Hio He) as (s3 & Hx & Hn3 & _). rewrite Hx in E2. cbn in E2. injection E2 as <- <-.
      intros i v l cs Hv Hcs. rewrite Hn3 in Hv. apply lookup_singleton_Some in Hv as [<- <-]. destruct l as [|[|l]]; [|done..]. cbn in Hcs. injection Hcs as <-.
      split; [constructor|by intros ?%elem_of_nil].
    + destruct (C66_insert_links P n s1 level vec id fuel HP Hio (hok_kind _ _ _ Hok) Hlv Hnb Hne Hnew Hsz) as (s3 & ns & Hx & Hl).
      rewrite Hx in E2. cbn in E2. injection E2 as <- <-. by eapply insert_links_neighbours.
  - rewrite exec_bind in E2. unfold hnsw_delete in E2. rewrite enc_delete_eq, exec_act in E2. cbn in E2. injection E2 as <- <-. exact Hnb.
  - assert (s2 = s1) as ->; [|done]. destruct (irun_new P n (fun v : fvec => length v = n) fuel (ops ++ [ISearch q k])) as (s3 & rs3 & Hr3 & _ & Hv & _); try done.
    { intros v1 v2. apply dist_total. apply Hok. } { apply Hok. } { rewrite hist_ins_app, app_length. lia. }
    rewrite irun_app, E1 in Hr3. cbn [irun iop_prog] in Hr3. rewrite E2 in Hr3. injection Hr3 as <- <-.
    apply Forall_app in Hv as [_ Hv]. apply Forall_cons in Hv as [Hv _]. destruct r; try done. by eapply (pure_search P 0 fuel).
Qed.
Print Assumptions C65_neighbours_partial.

(** Two inserts at the same time: each finds the other on layer 1 before it
    has its own list on layer 0, so a search on layer 0 comes back to the
    vertex it is made for, which becomes its own neighbour, twice. *)
Definition c65_params : hparams := HParams 2 2 4 4 false Euclidean.
Definition c65_work : list (list job) :=
  [[(0, [0]%N, 0%N); (1, [1082130432]%N, 1%N)]; [(1, [1065353216]%N, 2%N)]; [(1, [1073741824]%N, 3%N)]].
Definition c65_sched : list nat := replicate 12 0 ++ replicate 2 1 ++ [2] ++ replicate 8 1 ++ replicate 24 2 ++ replicate 16 1.
Lemma c65_work_ok : work_ok c65_params 1 c65_work empty_st.
Proof.
  split; [done| |apply (bool_decide_eq_true _); by vm_compute|done].
  intros j Hj. cbn in Hj. repeat (apply elem_of_cons in Hj as [->|Hj]; [done|]). by apply elem_of_nil in Hj.
Qed.
Theorem C65_neighbours_parallel_refuted :
  exists P n fuel work s' rs v cs, params_ok P /\ hp_m P < 2 * hp_mMax P /\ work_ok P n work empty_st /\
    length (mjoin work) <= fuel /\ rtc mstep (empty_st, inserters P fuel work) (s', Done <$> rs) /\
    nodes s' !! 2%N = Some v /\ v_conns v !! 0 = Some cs /\ 2%N ∈ cs /\ ~ NoDup cs.
Proof.
  exists c65_params, 1, 4, c65_work.
  assert ((run_sched (empty_st, inserters c65_params 4 c65_work) c65_sched ≫= fun '(s, ts) =>
    match ts, nodes s !! 2%N with
    | [Done (Val _); Done (Val _); Done (Val _)], Some v => v_conns v !! 0
    | _, _ => None
    end) = Some [2; 0; 2]%N) as H by by vm_compute.
  revert H. destruct (run_sched (empty_st, inserters c65_params 4 c65_work) c65_sched) as [[s' ts']|] eqn:Er; [|by intros]. cbn [mbind option_bind].
  apply run_sched_rtc in Er. intros H. destruct ts' as [|[[[]| |]|] [|[[[]| |]|] [|[[[]| |]|] [|]]]]; try done.
  destruct (nodes s' !! 2%N) as [v|] eqn:Ev; [|done].
  exists s', [Val tt; Val tt; Val tt], v, [2; 0; 2]%N. cbn [fmap list_fmap].
  split; [split; cbn; lia|]. split; [cbn; lia|]. split; [apply c65_work_ok|]. split; [cbn; lia|].
  split; [exact Er|]. split; [done|]. split; [exact H|]. split; [by left|]. intros (Hn & _)%NoDup_cons. apply Hn. by right; left.
Qed.
Print Assumptions C65_neighbours_parallel_refuted.

(** ** Concrete cases *)
Definition c66_st : st := match irun ex_params4 6 ex_hist empty_st with Some (s, _) => s | None => empty_st end.
Example C65_case : params_ok ex_params /\ hist_ok ex_params 1 ex_hist /\ length (hist_ins ex_hist) <= 6 /\
  (fun v => length (v_conns v)) <$> (nodes ex_st !! 13%N) = Some 3 /\
  (nodes ex_st !! 13%N ≫= fun v => v_conns v !! 0) <> Some [].
Proof. split_and!; [apply C22_case..|by vm_compute|by vm_compute]. Qed.
Lemma c66_ok : params_ok ex_params4 /\ hist_ok ex_params4 1 ex_hist /\ exists rs, irun ex_params4 6 ex_hist empty_st = Some (c66_st, rs).
Proof.
  assert (params_ok ex_params4) as HP by (split; cbn; lia).
  assert (hist_ok ex_params4 1 ex_hist) as HH by (apply hist_ok_check; [done|]; by vm_compute).
  split_and!; [done..|]. destruct (C22_index_never_panics ex_params4 1 6 ex_hist) as (s & rs & Hr & _); [done..|vm_compute; lia|].
  exists rs. unfold c66_st. by rewrite Hr.
Qed.
(** A vertex on two layers; its neighbours have full lists on both, which are
    chosen anew with it. *)
Example C66_case : params_ok ex_params4 /\ index_ok ex_params4 1 c66_st /\ dim_ok Euclidean 1 /\ neighbours_ok c66_st /\
  nodes c66_st <> ∅ /\ nodes c66_st !! 20%N = None /\ size (nodes c66_st) < 7 /\
  (fun i => v_conns <$> (nodes c66_st !! i)) <$> [13; 12]%N = [Some [[12; 11]; [11]; []]; Some [[13; 11]]]%N /\
  (fun '(s, _) => (fun i => v_conns <$> (nodes s !! i)) <$> [20; 13; 12]%N) <$> exec (hnsw_insert ex_params4 0 7 1 [1075838976]%N 20%N) c66_st =
    Some [Some [[13; 12]; [13; 11]]; Some [[20; 12]; [20]; []]; Some [[20; 11]]]%N.
Proof.
  destruct c66_ok as (HP & HH & rs & Hr). split_and!; [done| | | | | | |by vm_compute..].
  - eapply (reachable_index_ok _ _ 6 ex_hist); [done..|vm_compute; lia|exact Hr].
  - done.
  - eapply (C65_neighbours_partial _ _ 6 ex_hist); [done..|vm_compute; lia|exact Hr].
  - intros E. assert (size (nodes c66_st) = 0) as Hz by by rewrite E. by vm_compute in Hz.
  - by vm_compute.
  - vm_compute. lia.
Qed.
