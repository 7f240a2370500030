(** What two runs of a search have to do with each other: runs with another k,
    and runs before and after a Delete.  No invariant of the index is assumed. *)
From Verif Require Import GoBase FloatModel HeapModel ProgModel StateModel WalModel HnswModel StoreModel CollModel
  ProofBase CodecProofs HeapProofs WpProofs HnswProofs StepProofs SimProofs RestoreProofs AlignProofs.
Open Scope nat_scope.

(** ** The part of a search that does not look at k or at the deleted vertices *)
Definition same_graph (s1 s2 : st) : Prop := nodes s1 = nodes s2 /\ ep s1 = ep s2 /\ maxl s1 = maxl s2.

Section graph.
  Context (P : hparams) (tid : nat).
  Notation gsim := (sim same_graph).
  Lemma g_read_vertex n : gsim (read_vertex n).
  Proof. apply sim_read. by intros s1 s2 (-> & _). Qed.
  Lemma g_read_conns n l : gsim (read_conns P tid n l).
  Proof.
    intros s1 s2 (En & Ee & Em). rewrite En.
    destruct (nodes s2 !! n) as [v|]; [|exists s2; by split_and!].
    destruct (v_lock v); [done|]. destruct (v_conns v !! l) as [cs|]; [case_decide|].
    - exists s2. by split_and!.
    - eexists. split_and!; [done|..|done]. by split_and!.
    - eexists. split_and!; [done|..|done]. by split_and!.
  Qed.
  Lemma g_visit_conns q ef cs x : gsim (visit_conns P q ef cs x).
  Proof.
    revert x. induction cs as [|c cs IH]; intros x; cbn [visit_conns]; [done|].
    case_bool_decide; [apply IH|]. sim_tac. { apply g_read_vertex. } apply IH.
  Qed.
  Lemma g_search_loop fuel q ef l x : gsim (search_loop P tid fuel q ef l x).
  Proof.
    revert x. induction fuel as [|fuel IH]; intros x; cbn [search_loop]; destruct (sl_cands x) eqn:Ec; try done.
    sim_tac; [apply g_read_conns|apply g_visit_conns|apply IH].
  Qed.
  Lemma g_search_layer fuel q eps ef l : gsim (search_layer P tid fuel q eps ef l).
  Proof. unfold search_layer. sim_tac. apply g_search_loop. Qed.
  Lemma g_descend fuel q l stop e : gsim (descend P tid fuel q l stop e).
  Proof.
    revert e. induction l as [|l IH]; intros e; cbn [descend]; [done|].
    match goal with |- context [if ?b then _ else _] => destruct b end; [|done].
    apply sim_bind; [apply g_search_layer|intros near]. sim_tac; apply IH.
  Qed.

  (** search.go:8-35: everything before the results are taken off the heap *)
  Definition search_core (fuel : nat) (q : fvec) : prog st (list elem) :=
    '(epid, epv, cur) ← read_entry;
    d ← lift (dist P (v_vec epv) q);
    e ← descend P tid fuel q cur 0 (Elem epid d);
    search_layer P tid fuel q [e] (hp_ef P) 0.
  Lemma g_core fuel q : gsim (search_core fuel q).
  Proof.
    unfold search_core.
    apply sim_bind; [apply sim_read; by intros s1 s2 (-> & -> & ->)|intros [[epid epv] cur]].
    apply sim_bind; [apply sim_lift|intros d].
    apply sim_bind; [apply g_descend|intros e]. apply g_search_layer.
  Qed.

  (** The answer as a function of what the core found. *)
  Definition ranking (near : list elem) (dels : gset N) : list elem :=
    filter (live dels) (drain (length near) (new_min_heap near)).
  Lemma search_core_exec fuel q k s : (0 <= k)%Z ->
    exec (hnsw_search P tid fuel q k) s =
    match exec (search_core fuel q) s with
    | Some (s1, Val near) => Some (s1, Val (take (Z.to_nat k) (ranking near (deleted s1))))
    | Some (s1, Err e) => Some (s1, Err e)
    | Some (s1, Pan p) => Some (s1, Pan p)
    | None => None
    end.
  Proof.
    intros Hk. unfold hnsw_search, search_core. destruct (Z.ltb_spec k 0); [lia|].
    rewrite !exec_bind. unfold read_entry. rewrite exec_act. destruct (nodes s !! ep s) as [v|]; [|done]. cbn [or_pan mbind out_bind].
    cbv beta iota. rewrite !exec_bind, !exec_lift. destruct (dist P (v_vec v) q) as [d|e|p]; [|done..]. cbv beta iota.
    rewrite !exec_bind. destruct (exec (descend _ _ _ _ _ _ _) s) as [[s1 [e|e|p]]|]; [|done..]. cbv beta iota.
    rewrite !exec_bind. destruct (exec (search_layer _ _ _ _ _ _ _) s1) as [[s2 [near|e2|p]]|]; [|done..]. cbv beta iota.
    rewrite exec_bind, exec_act. cbv beta iota. rewrite exec_lift. do 2 f_equal. unfold ranking. rewrite take_live_ok; [done|].
    unfold new_min_heap. by rewrite (Permutation_length (heap_init_perm min_less near)).
  Qed.
End graph.

(** ** No vertex is found twice *)
Section nodup.
  Context (P : hparams) (t fuel : nat) (q : fvec) (s : st).
  Definition snodup (x : slstate) : Prop :=
    NoDup (e_id <$> sl_near x) /\ forall e, e ∈ sl_near x -> e_id e ∈ sl_visited x.

  Lemma consider_nodup ef n d x x' :
    n ∉ sl_visited x -> snodup x -> consider ef n d (SL ({[n]} ∪ sl_visited x) (sl_cands x) (sl_near x)) = Val x' -> snodup x'.
  Proof.
    intros Hn [H1 H2]. unfold consider. cbn [sl_visited sl_cands sl_near]. destruct (heap_peek _) as [f| |]; [|done..]. cbn [mbind out_bind].
    assert (H3 : NoDup (e_id <$> heap_push max_less (sl_near x) (Elem n d))).
    { rewrite heap_push_perm. cbn. constructor; [|done]. intros (e & Ee & He)%elem_of_list_fmap. apply Hn. rewrite Ee. by apply H2. }
    assert (H4 : forall e, e ∈ heap_push max_less (sl_near x) (Elem n d) -> e_id e ∈ {[n]} ∪ sl_visited x).
    { intros e. rewrite heap_push_perm. intros [->|He]%elem_of_cons; [cbn; set_solver|]. apply H2 in He. set_solver. }
    destruct (_ || _); [|intros <-%Val_inj; split; [done|]; cbn [sl_near sl_visited]; intros e He; apply H2 in He; set_solver].
    destruct (_ <? _); [|intros <-%Val_inj; by split]. destruct (heap_pop _ _) as [[y near']| |] eqn:Ep; [|done..]. intros <-%Val_inj.
    apply heap_pop_perm in Ep. split; cbn [sl_near sl_visited].
    - rewrite Ep in H3. cbn in H3. by apply NoDup_cons in H3 as [_ ?].
    - intros e He. apply H4. rewrite Ep. by right.
  Qed.
  Lemma visit_nodup ef cs : forall x s' x', snodup x -> exec (visit_conns P q ef cs x) s = Some (s', Val x') -> snodup x'.
  Proof.
    induction cs as [|n cs IH]; intros x s' x' Hx He; cbn [visit_conns] in He.
    - cbn in He. apply (inj Some), pair_inj in He as [_ He]. by apply Val_inj in He as <-.
    - case_bool_decide; [by eapply IH|]. apply exec_bind_val in He as (s1 & f & H1 & He). rewrite exec_lift in H1. apply Some_pair_inj in H1 as [<- _].
      apply exec_bind_val in He as (s2 & v & H2 & He). unfold read_vertex in H2. rewrite exec_act in H2. apply Some_pair_inj in H2 as [<- Hv].
      apply exec_bind_val in He as (s3 & d & H3 & He). rewrite exec_lift in H3. apply Some_pair_inj in H3 as [<- Hd].
      apply exec_bind_val in He as (s4 & y & H4 & He). rewrite exec_lift in H4. apply Some_pair_inj in H4 as [<- Hy].
      eapply IH; [|exact He]. by eapply consider_nodup.
  Qed.
  Lemma loop_nodup ef l f : forall x s' x', snodup x -> exec (search_loop P t f q ef l x) s = Some (s', Val x') -> snodup x'.
  Proof.
    induction f as [|f IH]; intros x s' x' Hx He; cbn [search_loop] in He.
    { destruct (sl_cands x); [|done]. cbn in He. apply (inj Some), pair_inj in He as [_ He]. by apply Val_inj in He as <-. }
    destruct (sl_cands x) as [|c0 cs0] eqn:Ec.
    { cbn in He. apply (inj Some), pair_inj in He as [_ He]. by apply Val_inj in He as <-. }
    rewrite <- Ec in He. apply exec_bind_val in He as (s1 & [c cands] & H1 & He). rewrite exec_lift in H1. apply Some_pair_inj in H1 as [<- Hp].
    apply exec_bind_val in He as (s2 & g & H2 & He). rewrite exec_lift in H2. apply Some_pair_inj in H2 as [<- _].
    destruct (fltb _ _).
    { cbn in He. apply (inj Some), pair_inj in He as [_ He]. by apply Val_inj in He as <-. }
    apply exec_bind_val in He as (s3 & conns & H3 & He). apply pure_read_conns in H3 as ->.
    apply exec_bind_val in He as (s4 & y & H4 & He). pose proof (pure_visit_conns _ _ _ _ _ _ _ _ H4) as ->.
    eapply IH; [|exact He]. eapply visit_nodup; [|exact H4]. done.
  Qed.
  Lemma layer_nodup e ef l s' near : exec (search_layer P t fuel q [e] ef l) s = Some (s', Val near) -> NoDup (e_id <$> near).
  Proof.
    intros He. unfold search_layer in He. apply exec_bind_val in He as (s1 & cands & H1 & He). rewrite exec_lift in H1. apply Some_pair_inj in H1 as [<- Hc].
    apply exec_bind_val in He as (s2 & nr & H2 & He). rewrite exec_lift in H2. apply Some_pair_inj in H2 as [<- Hn].
    apply exec_bind_val in He as (s3 & x & H3 & He). cbn in He. apply (inj Some), pair_inj in He as [_ He]. apply Val_inj in He as <-.
    eapply loop_nodup; [|exact H3]. unfold new_max_heap_deep in Hn. destruct (decide _); [|done].
    apply Val_inj in Hn as <-. split; cbn [sl_near sl_visited].
    - rewrite heap_init_perm. apply NoDup_singleton.
    - intros x0. rewrite heap_init_perm. set_solver.
  Qed.
End nodup.
Lemma core_nodup P t fuel q s s' near : exec (search_core P t fuel q) s = Some (s', Val near) -> NoDup (e_id <$> near) /\ s' = s.
Proof.
  intros He. unfold search_core in He. apply exec_bind_val in He as (s1 & [[i v] cur] & H1 & He).
  unfold read_entry in H1. rewrite exec_act in H1. apply Some_pair_inj in H1 as [<- Hv].
  apply exec_bind_val in He as (s2 & d & H2 & He). rewrite exec_lift in H2. apply Some_pair_inj in H2 as [<- Hd].
  apply exec_bind_val in He as (s3 & e & H3 & He). pose proof (pure_descend _ _ _ _ _ _ _ _ _ _ H3) as ->.
  split; [by eapply layer_nodup|]. by apply pure_search_layer in He.
Qed.
Lemma sublist_filter {A} (Q : A -> Prop) `{forall x, Decision (Q x)} (l : list A) : filter Q l `sublist_of` l.
Proof. induction l as [|x l IH]; [constructor|]. rewrite filter_cons. case_decide; by constructor. Qed.
Lemma NoDup_submseteq_1 {A} (l1 l2 : list A) : l1 ⊆+ l2 -> NoDup l2 -> NoDup l1.
Proof. intros (k & H)%submseteq_Permutation Hn. rewrite H in Hn. by apply NoDup_app in Hn as [? _]. Qed.
Lemma ranking_nodup near dels : NoDup (e_id <$> near) -> NoDup (e_id <$> ranking near dels).
Proof.
  intros H. unfold ranking.
  assert (Hd : drain (length near) (new_min_heap near) ≡ₚ near).
  { rewrite drain_perm; unfold new_min_heap; [apply heap_init_perm|]. by rewrite (Permutation_length (heap_init_perm min_less near)). }
  rewrite <- Hd in H at 1. eapply NoDup_submseteq_1; [|exact H]. apply sublist_submseteq, fmap_sublist, sublist_filter.
Qed.

(** ** Lists *)
Lemma filter_ne_notin {A} (f : A -> N) (i : N) (l : list A) : i ∉ (f <$> l) -> filter (fun a => f a <> i) l = l.
Proof.
  induction l as [|a l IH]; [done|]. rewrite fmap_cons, not_elem_of_cons. intros [H1 H2]. rewrite filter_cons_True by congruence. by rewrite IH.
Qed.
(** One element less. *)
Lemma take_filter_ne {A} (f : A -> N) (i : N) (l : list A) : NoDup (f <$> l) -> forall k,
  take k (filter (fun a => f a <> i) l) = take k (filter (fun a => f a <> i) (take (S k) l)).
Proof.
  induction l as [|a l IH]; intros Hnd k; [done|]. rewrite fmap_cons in Hnd. apply NoDup_cons in Hnd as [Hni Hnd]. rewrite firstn_cons.
  destruct (decide (f a = i)) as [He|Hne].
  - rewrite !filter_cons_False by tauto.
    rewrite !filter_ne_notin; [by rewrite take_take, Nat.min_id| |by subst i]. intros (x & -> & Hx)%elem_of_list_fmap. apply Hni. rewrite He.
    apply elem_of_list_fmap. exists x. split; [done|]. apply elem_of_take in Hx as (j & ? & _). by eapply elem_of_list_lookup_2.
  - rewrite !filter_cons_True by done. destruct k as [|k]; [done|]. rewrite !firstn_cons. f_equal. by apply IH.
Qed.

(** ** From elements to hits *)
(** [h] is the hit reported for the element [e]. *)
Definition shown (C : cparams) (s : st) (e : elem) (h : hit) : Prop :=
  exists o, get_object (cp_json C) s (e_id e) = Val (Some o) /\ h = Hit (o_id o) (o_props o) (e_dist e).
Lemma get_objects_le C s ids : forall os, get_objects (cp_json C) s ids = Val os -> length os <= length ids.
Proof.
  induction ids as [|i ids IH]; intros os; cbn [get_objects]; [by intros <-%Val_inj|].
  destruct (get_object _ s i) as [o| |]; [|done..]. cbn [mbind out_bind]. destruct (get_objects _ s ids) as [os'| |] eqn:E; [|done..].
  cbn [mbind out_bind]. intros <-%Val_inj. specialize (IH _ eq_refl). destruct o; cbn; lia.
Qed.
Lemma pair_results_short es : forall os hs, pair_results os es = Val hs -> length es <= length os.
Proof.
  induction es as [|e es IH]; intros os hs H; [cbn; lia|]. destruct os as [|o os]; [done|]. simpl in H.
  destruct (pair_results os es) as [r| |] eqn:E; [|done..]. apply IH in E. cbn. lia.
Qed.
Lemma shown_all C s es : forall os hs,
  get_objects (cp_json C) s (e_id <$> es) = Val os -> pair_results os es = Val hs -> Forall2 (shown C s) es hs.
Proof.
  induction es as [|e es IH]; intros os hs; rewrite ?fmap_cons; cbn [get_objects pair_results fmap list_fmap].
  { intros <-%Val_inj. cbn. intros <-%Val_inj. constructor. }
  destruct (get_object _ s (e_id e)) as [o| |] eqn:Eo; [|done..]. cbn [mbind out_bind].
  destruct (get_objects _ s (e_id <$> es)) as [os'| |] eqn:E; [|done..]. cbn [mbind out_bind]. intros <-%Val_inj. destruct o as [o|].
  - cbn [pair_results]. destruct (pair_results os' es) as [r| |] eqn:Er; [|done..]. intros <-%Val_inj. constructor; [by exists o|]. by eapply IH.
  - pose proof (get_objects_le _ _ _ _ E) as Hl. rewrite fmap_length in Hl. destruct os' as [|o' os']; [done|]. cbn [pair_results].
    destruct (pair_results os' es) as [r| |] eqn:Er; [|done..]. apply pair_results_short in Er. cbn in Hl. lia.
Qed.
Lemma shown_back C s es hs : Forall2 (shown C s) es hs ->
  exists os, get_objects (cp_json C) s (e_id <$> es) = Val os /\ pair_results os es = Val hs.
Proof.
  induction 1 as [|e h es hs (o & Eo & ->) H (os & E1 & E2)]; [by exists []|].
  exists (o :: os). rewrite fmap_cons. cbn [get_objects pair_results]. rewrite Eo. cbn [mbind out_bind]. rewrite E1. cbn [mbind out_bind]. by rewrite E2.
Qed.

Lemma semantic_inv C tid o k s s' n hs : exec (semantic_search C tid o k) s = Some (s', Val (n, hs)) ->
  s' = s /\ closed s = false /\ (0 <= k)%Z /\ exists o' near, embed_objects C [o] = Val [o'] /\
    exec (search_core (cp_h C) tid (cp_fuel C) (vec_or_nil o')) s = Some (s, Val near) /\ NoDup (e_id <$> near) /\
    n = length hs /\ Forall2 (shown C s) (take (Z.to_nat k) (ranking near (deleted s))) hs.
Proof.
  intros Hx. unfold semantic_search in Hx. apply exec_bind_val in Hx as (s1 & u & H1 & Hx).
  unfold check_open in H1. rewrite exec_act in H1. apply Some_pair_inj in H1 as [<- Hcl]. destruct (closed s) eqn:Ecl; [done|].
  apply exec_bind_val in Hx as (s2 & os & H2 & Hx). rewrite exec_lift in H2. apply Some_pair_inj in H2 as [<- Hemb].
  destruct os as [|o' [|? ?]]; [done| |done]. apply exec_bind_val in Hx as (s3 & es & H3 & Hx). pose proof (pure_search _ _ _ _ _ _ _ _ H3) as ->.
  apply exec_bind_val in Hx as (s4 & ob & H4 & Hx). rewrite exec_act in H4. apply Some_pair_inj in H4 as [<- Hob].
  apply exec_bind_val in Hx as (s5 & hs' & H5 & Hx). rewrite exec_lift in H5. apply Some_pair_inj in H5 as [<- Hhs].
  cbn in Hx. apply Some_pair_inj in Hx as [<- Hx]. apply Val_inj, pair_inj in Hx as [<- ->].
  assert (Hk : (0 <= k)%Z) by (unfold hnsw_search in H3; destruct (Z.ltb_spec k 0); [done|done]).
  rewrite search_core_exec in H3 by done. destruct (exec (search_core _ _ _ _) s) as [[s1 [near| |]]|] eqn:Ec; [|done..].
  destruct (core_nodup _ _ _ _ _ _ _ Ec) as [Hnd ->]. apply Some_pair_inj in H3 as [_ H3]. apply Val_inj in H3 as <-.
  pose proof (shown_all _ _ _ _ _ Hob Hhs) as HF.
  split_and!; try done. exists o', near. split_and!; try done. by eapply Forall2_length.
Qed.
Lemma semantic_back C tid o k s o' near hs :
  closed s = false -> (0 <= k)%Z -> embed_objects C [o] = Val [o'] ->
  exec (search_core (cp_h C) tid (cp_fuel C) (vec_or_nil o')) s = Some (s, Val near) ->
  Forall2 (shown C s) (take (Z.to_nat k) (ranking near (deleted s))) hs ->
  exec (semantic_search C tid o k) s = Some (s, Val (length hs, hs)).
Proof.
  intros Hcl Hk He Hc HF. unfold semantic_search. rewrite exec_bind. unfold check_open. rewrite exec_act, Hcl. cbv beta iota.
  rewrite exec_bind, exec_lift, He. cbv beta iota. rewrite exec_bind, search_core_exec, Hc by done. cbv beta iota.
  destruct (shown_back _ _ _ _ HF) as (os & E1 & E2). rewrite exec_bind, exec_act. rewrite E1. cbv beta iota. rewrite exec_bind, exec_lift, E2.
  cbv beta iota. cbn. by rewrite (Forall2_length _ _ _ HF).
Qed.
Lemma shown_id C s e h : shown C s e h -> h_id h = e_id e /\ is_Some (objs s !! id_key (e_id e)).
Proof.
  intros (o & Ho & ->). cbn. unfold get_object in Ho. destruct (objs s !! _) as [ob|]; [|done]. split; [|by eexists]. destruct (closed s); [done|].
  destruct (vecs s !! _) as [vb|]; [|done]. destruct (de_props _ ob) as [p| |]; [|done..]. cbn [mbind out_bind] in Ho.
  destruct (de_vec vb) as [v| |]; [|done..]. apply Val_inj in Ho. by injection Ho as <-.
Qed.
Lemma shown_ids C s es hs : Forall2 (shown C s) es hs -> h_id <$> hs = e_id <$> es.
Proof. induction 1 as [|e h es hs H _ IH]; [done|]. rewrite !fmap_cons, IH. by destruct (shown_id _ _ _ _ H) as [-> _]. Qed.
(** Only the stores are looked at. *)
Lemma shown_other C s s' id e h :
  (forall k, k <> id_key id -> objs s' !! k = objs s !! k) -> vecs s' = vecs s -> closed s' = closed s ->
  id_key (e_id e) <> id_key id -> shown C s e h -> shown C s' e h.
Proof.
  intros Ho Hv Hc Hne (o & Eo & ->). exists o. split; [|done]. rewrite <- Eo. unfold get_object. by rewrite Ho, Hv, Hc.
Qed.
Lemma shown_filter C s id es hs : Forall2 (shown C s) es hs ->
  Forall2 (shown C s) (filter (fun e => e_id e <> id) es) (filter (fun h => h_id h <> id) hs).
Proof.
  induction 1 as [|e h es hs H _ IH]; [constructor|]. destruct (shown_id _ _ _ _ H) as [Hi _]. destruct (decide (e_id e = id)).
  - rewrite !filter_cons_False by (rewrite ?Hi; tauto). done.
  - rewrite !filter_cons_True by (by rewrite ?Hi). by constructor.
Qed.

(** ** Delete *)
Lemma delete_effect C io id s s' : exec (delete_obj C io id) s = Some (s', Val tt) ->
  s' = s /\ (get_object (cp_json C) s id = Val None) \/
  same_graph s s' /\ deleted s' = {[id]} ∪ deleted s /\ closed s' = closed s /\ vecs s' = vecs s /\ objs s' = delete (id_key id) (objs s).
Proof.
  unfold delete_obj. rewrite exec_bind, exec_act. destruct (get_object _ s id) as [[o|]| |] eqn:Eo; [|by intros [<- _]%Some_pair_inj; left|done..].
  intros Hx. right. apply exec_bind_val in Hx as (s1 & u & H1 & Hx). unfold delete_object in H1. rewrite exec_act in H1.
  destruct (closed s) eqn:Ecl; [done|]. apply Some_pair_inj in H1 as [<- _].
  apply exec_bind_val in Hx as (s2 & u2 & H2 & Hx). unfold hnsw_delete in H2. destruct (enc_delete id) as [r| |]; [|done..].
  rewrite exec_act in H2. apply Some_pair_inj in H2 as [<- _]. unfold flush in Hx. rewrite exec_act in Hx. apply (inj Some) in Hx. unfold wal_flush in Hx.
  repeat (case_match; try done); apply Some_pair_inj in Hx || apply pair_inj in Hx; destruct Hx as [<- _]; by cbn.
Qed.
Lemma ranking_delete near dels id : ranking near ({[id]} ∪ dels) = filter (fun e => e_id e <> id) (ranking near dels).
Proof.
  unfold ranking. rewrite list_filter_filter. apply list_filter_iff. intros e. unfold live. set_solver.
Qed.
Lemma core_found P t fuel q s s' near : exec (search_core P t fuel q) s = Some (s', Val near) -> Forall (fun e => is_Some (nodes s !! e_id e)) near.
Proof.
  intros He. unfold search_core in He. apply exec_bind_val in He as (s1 & [[i v] cur] & H1 & He).
  unfold read_entry in H1. rewrite exec_act in H1. apply Some_pair_inj in H1 as [<- Hv]. destruct (nodes s !! ep s) as [w|] eqn:Ew; [|done].
  apply Val_inj in Hv. apply exec_bind_val in He as (s2 & d & H2 & He). rewrite exec_lift in H2. apply Some_pair_inj in H2 as [<- Hd].
  injection Hv as <- <- <-.
  apply exec_bind_val in He as (s3 & e & H3 & He). pose proof (pure_descend _ _ _ _ _ _ _ _ _ _ H3) as ->. apply descend_found in H3; [|by exists w].
  apply layer_found in He; [|by repeat constructor]. eapply Forall_impl; [exact He|]. intros x (y & Hy & _). by eexists.
Qed.
Lemma ranking_in near dels e : e ∈ ranking near dels -> e ∈ near.
Proof.
  unfold ranking. intros [_ H]%elem_of_list_filter. rewrite drain_perm in H; unfold new_min_heap in *; [by rewrite heap_init_perm in H|].
  by rewrite (Permutation_length (heap_init_perm min_less near)).
Qed.
