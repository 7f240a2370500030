(** What a layer search reaches when the candidate list is large enough never
    to drop a vertex, and the graph the index builds while it is that small. *)
From stdpp Require Import sorting.
From Verif Require Import GoBase FloatModel HeapModel ProgModel StateModel WalModel HnswModel StoreModel CollModel
  ProofBase CodecProofs FloatProofs HeapProofs WpProofs HnswProofs IndexProofs StepProofs SeqLog IndexHist CallProofs HistProofs
  SimProofs WalProofs StoreView RestoreProofs.
Open Scope nat_scope.

Section cover.
  Context (P : hparams) (t : nat).

  (** The neighbours of [X] on layer [l] are in [X]. *)
  Definition closed_at (X : gset N) (l : nat) (s : st) : Prop :=
    forall i v cs c, i ∈ X -> nodes s !! i = Some v -> v_conns v !! l = Some cs -> c ∈ cs -> c ∈ X.
  (** No vertex of [X] has a NaN distance to [q]. *)
  Definition numbers (X : gset N) (q : fvec) (s : st) : Prop :=
    forall i v d, i ∈ X -> nodes s !! i = Some v -> dist P (v_vec v) q = Val d -> num d.

  (** [e] names a vertex of [X] with its distance to [q], which is no NaN. *)
  Definition egood (X : gset N) (q : fvec) (s : st) (e : elem) : Prop :=
    e_id e ∈ X /\ num (e_dist e) /\ exists v, nodes s !! e_id e = Some v /\ dist P (v_vec v) q = Val (e_dist e).

  (** The local variables only name vertices of [X]. *)
  Record within (X : gset N) (q : fvec) (s : st) (x : slstate) : Prop := MkWithin {
    wi_vis : sl_visited x ⊆ X;
    wi_near : forall e, e ∈ sl_near x -> egood X q s e;
    wi_cands : forall e, e ∈ sl_cands x -> egood X q s e
  }.
  (** Every visited vertex is still among the nearest. *)
  Record full (x : slstate) : Prop := MkFull {
    fu_nd : NoDup (eids (sl_near x));
    fu_ids : forall i, i ∈ eids (sl_near x) <-> i ∈ sl_visited x
  }.

  Lemma full_size X q s x : within X q s x -> full x -> length (sl_near x) <= size X.
  Proof.
    intros Hw Hf. assert (size (list_to_set (eids (sl_near x)) : gset N) = length (sl_near x)) as Hl.
    { rewrite size_list_to_set by apply Hf. apply fmap_length. }
    rewrite <- Hl. apply subseteq_size. intros i Hi%elem_of_list_to_set. apply (fu_ids _ Hf) in Hi. by apply Hw.
  Qed.

  Lemma consider_within X q s ef nid d x x' :
    within X q s x -> egood X q s (Elem nid d) -> consider ef nid d x = Val x' -> within X q s x' /\ sl_visited x' = sl_visited x.
  Proof.
    intros [Hv Hn Hc] Hd. unfold consider. destruct (heap_peek (sl_near x)) as [f| |]; cbn [mbind out_bind]; [|done..].
    destruct (_ || _); [|intros [= <-]; by split].
    assert (forall e, e ∈ heap_push max_less (sl_near x) (Elem nid d) -> egood X q s e) as Hn'.
    { intros e He. rewrite heap_push_perm in He. apply elem_of_cons in He as [->|He]; [done|by apply Hn]. }
    assert (forall e, e ∈ heap_push min_less (sl_cands x) (Elem nid d) -> egood X q s e) as Hc'.
    { intros e He. rewrite heap_push_perm in He. apply elem_of_cons in He as [->|He]; [done|by apply Hc]. }
    destruct (ef <? _).
    - destruct (heap_pop max_less _) as [[e near']| |] eqn:Ep; cbn [mbind out_bind]; [|done..]. intros [= <-]. split; [|done].
      split; [done| |done]. cbn [sl_near]. intros e' He'. apply Hn'. rewrite (heap_pop_perm _ _ _ _ Ep). by apply elem_of_list_further.
    - intros [= <-]. split; [|done]. by split.
  Qed.
  Lemma consider_full X q s ef nid d x x' :
    within X q s x -> full x -> size X <= ef -> nid ∈ X -> nid ∉ sl_visited x ->
    consider ef nid d (SL ({[nid]} ∪ sl_visited x) (sl_cands x) (sl_near x)) = Val x' -> full x'.
  Proof.
    intros Hw Hf He HX Hnv. unfold consider. cbn [sl_near sl_cands sl_visited].
    destruct (heap_peek (sl_near x)) as [f| |]; cbn [mbind out_bind]; [|done..].
    assert (length (sl_near x) < size X) as Hlt.
    { assert (size (list_to_set (nid :: eids (sl_near x)) : gset N) = S (length (sl_near x))) as Hl.
      { rewrite size_list_to_set; [cbn [length]; f_equal; apply fmap_length|]. constructor; [|apply Hf].
        intros Hin. by apply (fu_ids _ Hf) in Hin. }
      assert (size (list_to_set (nid :: eids (sl_near x)) : gset N) <= size X); [|lia].
      apply subseteq_size. intros i Hi%elem_of_list_to_set. apply elem_of_cons in Hi as [->|Hi]; [done|].
      apply (fu_ids _ Hf) in Hi. by apply Hw. }
    assert ((length (sl_near x) <? ef) = true) as -> by (apply Nat.ltb_lt; lia). rewrite orb_true_r.
    pose proof (heap_push_perm max_less (sl_near x) (Elem nid d)) as Hp.
    assert ((ef <? length (heap_push max_less (sl_near x) (Elem nid d))) = false) as ->.
    { apply Nat.ltb_ge. rewrite (Permutation_length Hp). cbn [length]. lia. }
    intros [= <-]. pose proof (eids_perm _ _ Hp) as Hp'. split; cbn [sl_near sl_visited].
    - rewrite Hp'. cbn. constructor; [|apply Hf]. intros Hin. by apply (fu_ids _ Hf) in Hin.
    - intros i. rewrite Hp'. cbn. rewrite elem_of_cons, elem_of_union, elem_of_singleton.
      pose proof (fu_ids _ Hf i). unfold eids in *. tauto.
  Qed.

  Lemma visit_within X q ef cs x s s' x' :
    exec (visit_conns P q ef cs x) s = Some (s', Val x') -> numbers X q s -> (forall c, c ∈ cs -> c ∈ X) ->
    within X q s x -> within X q s x' /\ sl_visited x ⊆ sl_visited x' /\
      (size X <= ef -> full x -> full x' /\ forall c, c ∈ cs -> c ∈ sl_visited x').
  Proof.
    revert x s. induction cs as [|c cs IH]; intros x s Hx Hnum Hcs Hw; cbn [visit_conns] in Hx.
    { apply Some_pair_inj in Hx as [_ Hx]. apply Val_inj in Hx. subst x'. split_and!; [done|done|].
      intros _ Hf. split; [done|]. by intros c ?%elem_of_nil. }
    case_bool_decide as Hv.
    { destruct (IH x s Hx Hnum) as (H1 & H2 & H3); [intros; apply Hcs; by apply elem_of_list_further|done|].
      split_and!; [done|done|]. intros He Hf. destruct (H3 He Hf) as [H4 H5]. split; [done|].
      intros c' [->|Hc]%elem_of_cons; [by apply H2|by apply H5]. }
    apply exec_bind_val in Hx as (s1 & f & Hf1 & Hx). rewrite exec_lift in Hf1. apply Some_pair_inj in Hf1 as [<- _].
    apply exec_bind_val in Hx as (s2 & nb & Hnb & Hx). unfold read_vertex in Hnb. rewrite exec_act in Hnb.
    apply Some_pair_inj in Hnb as [<- Hnb]. destruct (nodes s !! c) as [v|] eqn:Ec; [|done]. apply Val_inj in Hnb. subst nb.
    apply exec_bind_val in Hx as (s3 & d & Hd & Hx). rewrite exec_lift in Hd. apply Some_pair_inj in Hd as [<- Hd].
    apply exec_bind_val in Hx as (s4 & x1 & Hx1 & Hx). rewrite exec_lift in Hx1. apply Some_pair_inj in Hx1 as [<- Hx1].
    assert (c ∈ X) as HcX by (apply Hcs; apply elem_of_list_here).
    assert (within X q s (SL ({[c]} ∪ sl_visited x) (sl_cands x) (sl_near x))) as Hw0.
    { split; cbn [sl_visited sl_near sl_cands]; [|apply Hw|apply Hw]. pose proof (wi_vis _ _ _ _ Hw). set_solver. }
    destruct (consider_within X q s ef c d _ x1 Hw0) as [Hw1 Hv1]; [split_and!; [done|by eapply Hnum|by exists v]|done|]. cbn [sl_visited] in Hv1.
    destruct (IH x1 s Hx Hnum) as (H1 & H2 & H3); [intros; apply Hcs; by apply elem_of_list_further|done|].
    split_and!; [done|set_solver|]. intros He Hf.
    assert (full x1) as Hf' by (exact (consider_full X q s ef c d x x1 Hw Hf He HcX Hv Hx1)).
    destruct (H3 He Hf') as [H4 H5]. split; [done|].
    intros c' [->|Hc]%elem_of_cons; [|by apply H5]. apply H2. rewrite Hv1. set_solver.
  Qed.

  Lemma loop_within fuel X q ef l x s s' x' :
    exec (search_loop P t fuel q ef l x) s = Some (s', Val x') -> numbers X q s -> closed_at X l s ->
    within X q s x -> within X q s x' /\ sl_visited x ⊆ sl_visited x' /\ (size X <= ef -> full x -> full x').
  Proof.
    revert x s. induction fuel as [|fuel IH]; intros x s Hx Hnum Hcl Hw; cbn [search_loop] in Hx.
    { destruct (sl_cands x); [|done]. apply Some_pair_inj in Hx as [_ Hx]. apply Val_inj in Hx. by subst x'. }
    destruct (sl_cands x) as [|c0 cs0] eqn:Ec.
    { apply Some_pair_inj in Hx as [_ Hx]. apply Val_inj in Hx. by subst x'. }
    rewrite <- Ec in Hx. clear c0 cs0 Ec.
    apply exec_bind_val in Hx as (s1 & [c cands] & Hp & Hx). rewrite exec_lift in Hp. apply Some_pair_inj in Hp as [<- Hp].
    apply exec_bind_val in Hx as (s1 & f & Hpk & Hx). rewrite exec_lift in Hpk. apply Some_pair_inj in Hpk as [<- _].
    pose proof (heap_pop_perm _ _ _ _ Hp) as Hperm.
    assert (within X q s (SL (sl_visited x) cands (sl_near x))) as Hw0.
    { split; cbn [sl_visited sl_near sl_cands]; [apply Hw|apply Hw|]. intros e He. apply (wi_cands _ _ _ _ Hw). rewrite Hperm. by apply elem_of_list_further. }
    assert (full x -> full (SL (sl_visited x) cands (sl_near x))) as Hf0 by (intros []; by split).
    destruct (fltb _ _).
    { apply Some_pair_inj in Hx as [_ Hx]. apply Val_inj in Hx. subst x'. split_and!; auto. }
    apply exec_bind_val in Hx as (s1 & conns & Hr & Hx). pose proof (pure_read_conns P t _ _ _ _ _ Hr) as ->.
    unfold read_conns in Hr. rewrite exec_act_lock in Hr. destruct (nodes s !! e_id c) as [v|] eqn:En; [|done].
    destruct (v_lock v); [done|]. destruct (v_conns v !! l) as [cs|] eqn:El; [|done]. case_decide; [|done].
    apply Some_pair_inj in Hr as [_ Hr]. apply Val_inj in Hr. subst conns.
    apply exec_bind_val in Hx as (s1 & x1 & Hvs & Hx). pose proof (pure_visit_conns P _ _ _ _ _ _ _ Hvs) as ->.
    destruct (visit_within X _ _ _ _ _ _ _ Hvs Hnum) as (H1 & H2 & H3); [|done|].
    { intros c' Hc'. eapply Hcl; [|done..]. apply (wi_cands _ _ _ _ Hw). rewrite Hperm. apply elem_of_list_here. }
    destruct (IH _ _ Hx Hnum Hcl H1) as (H4 & H5 & H6). cbn [sl_visited] in *. split_and!; [done|set_solver|].
    intros He Hf. apply H6; [done|]. by apply H3; auto.
  Qed.

  (** The candidate taken first is never skipped: it is one of the nearest. *)
  Lemma loop_first fuel X q ef l eps cands near s s' x' :
    exec (search_loop P t fuel q ef l (SL (list_to_set (eids eps)) cands near)) s = Some (s', Val x') ->
    cands = heap_init min_less eps -> near = heap_init max_less eps -> eps <> [] ->
    numbers X q s -> closed_at X l s -> (forall e, e ∈ eps -> egood X q s e) ->
    size X <= ef -> NoDup (eids eps) ->
    exists e v cs, e ∈ eps /\ nodes s !! e_id e = Some v /\ v_conns v !! l = Some cs /\
      forall c, c ∈ cs -> c ∈ sl_visited x'.
  Proof.
    intros Hx Hcd Hnr Hne Hnum Hcl Heps Hef Hnd.
    assert (cands ≡ₚ eps) as Pc by (subst cands; apply heap_init_perm).
    assert (near ≡ₚ eps) as Pn by (subst near; apply heap_init_perm).
    assert (Forall enum eps) as Hen by (apply Forall_forall; intros e He; by apply Heps).
    assert (within X q s (SL (list_to_set (eids eps)) cands near)) as Hw.
    { split; cbn [sl_visited sl_near sl_cands].
      - intros i Hi%elem_of_list_to_set. apply elem_of_list_fmap in Hi as (e & -> & He). by apply Heps.
      - intros e. rewrite Pn. apply Heps.
      - intros e. rewrite Pc. apply Heps. }
    destruct fuel as [|fuel]; cbn [search_loop sl_cands] in Hx.
    { destruct cands; [|done]. apply Permutation_nil in Pc. done. }
    destruct cands as [|c0 cs0] eqn:Ec. { by apply Permutation_nil in Pc. }
    rewrite <- Ec in *. clear c0 cs0 Ec.
    apply exec_bind_val in Hx as (s1 & [c cands'] & Hp & Hx). rewrite exec_lift in Hp. apply Some_pair_inj in Hp as [<- Hp].
    apply exec_bind_val in Hx as (s1 & f & Hpk & Hx). rewrite exec_lift in Hpk. apply Some_pair_inj in Hpk as [<- Hpk].
    cbn [sl_near sl_visited] in *.
    assert (f ∈ eps) as Hfe.
    { unfold heap_peek in Hpk. destruct (last near) as [f'|] eqn:El; [|done]. apply Val_inj in Hpk. subst f'.
      apply last_Some_elem_of in El. by rewrite Pn in El. }
    pose proof (heap_pop_perm _ _ _ _ Hp) as Hperm.
    assert (c ∈ eps) as Hce. { rewrite <- Pc, Hperm. apply elem_of_list_here. }
    assert (fltb (e_dist f) (e_dist c) = false) as Hle.
    { destruct (heap_pop_ok min_less enum min_less_irr min_less_asym min_less_ntrans cands c cands') as (_ & _ & Hmin); [| |done|].
      - by rewrite Pc.
      - subst cands. by apply (heap_init_ok min_less enum min_less_irr min_less_asym min_less_ntrans).
      - apply Hmin. by rewrite Pc. }
    rewrite Hle in Hx.
    apply exec_bind_val in Hx as (s1 & conns & Hr & Hx). pose proof (pure_read_conns P t _ _ _ _ _ Hr) as ->.
    unfold read_conns in Hr. rewrite exec_act_lock in Hr. destruct (nodes s !! e_id c) as [v|] eqn:En; [|done].
    destruct (v_lock v); [done|]. destruct (v_conns v !! l) as [cs|] eqn:El; [|done]. case_decide; [|done].
    apply Some_pair_inj in Hr as [_ Hr]. apply Val_inj in Hr. subst conns.
    apply exec_bind_val in Hx as (s1 & x1 & Hvs & Hx). pose proof (pure_visit_conns P _ _ _ _ _ _ _ Hvs) as ->.
    assert (within X q s (SL (list_to_set (eids eps)) cands' near)) as Hw0.
    { split; cbn [sl_visited sl_near sl_cands]; [apply Hw|apply Hw|]. intros e He. apply (wi_cands _ _ _ _ Hw). cbn. rewrite Hperm. by apply elem_of_list_further. }
    destruct (visit_within X _ _ _ _ _ _ _ Hvs Hnum) as (H1 & H2 & H3); [|done|].
    { intros c' Hc'. eapply Hcl; [|done..]. by apply Heps. }
    destruct H3 as [_ H3]; [done| |].
    { split; cbn [sl_near sl_visited]; [by rewrite (eids_perm _ _ Pn)|]. intros i. by rewrite (eids_perm _ _ Pn), elem_of_list_to_set. }
    destruct (loop_within _ X _ _ _ _ _ _ _ Hx Hnum Hcl H1) as (_ & H5 & _).
    exists c, v, cs. split_and!; [done..|]. intros c' Hc'. by apply H5, H3.
  Qed.

  Lemma layer_within fuel X q eps ef l s s' near :
    exec (search_layer P t fuel q eps ef l) s = Some (s', Val near) -> numbers X q s -> closed_at X l s ->
    (forall e, e ∈ eps -> egood X q s e) ->
    (forall e, e ∈ near -> egood X q s e) /\
    (size X <= ef -> NoDup (eids eps) -> eps <> [] ->
      NoDup (eids near) /\ near <> [] /\
      exists e v cs, e ∈ eps /\ e_id e ∈ eids near /\ nodes s !! e_id e = Some v /\ v_conns v !! l = Some cs /\
        forall c, c ∈ cs -> c ∈ eids near).
  Proof.
    intros Hx Hnum Hcl Heps. unfold search_layer in Hx.
    apply exec_bind_val in Hx as (s1 & cands & Hc & Hx). rewrite exec_lift in Hc. apply Some_pair_inj in Hc as [<- Hc].
    apply exec_bind_val in Hx as (s1 & near0 & Hn & Hx). rewrite exec_lift in Hn. apply Some_pair_inj in Hn as [<- Hn].
    apply exec_bind_val in Hx as (s1 & x & Hl & Hx). apply Some_pair_inj in Hx as [_ Hx]. apply Val_inj in Hx. subst near.
    unfold new_min_heap_deep in Hc. unfold new_max_heap_deep in Hn. case_decide; [|done]. apply Val_inj in Hc, Hn.
    assert (cands ≡ₚ eps) as Pc by (subst cands; apply heap_init_perm).
    assert (near0 ≡ₚ eps) as Pn by (subst near0; apply heap_init_perm).
    assert (within X q s (SL (list_to_set (e_id <$> eps)) cands near0)) as Hw.
    { split; cbn [sl_visited sl_near sl_cands].
      - intros i Hi%elem_of_list_to_set. apply elem_of_list_fmap in Hi as (e & -> & He). by apply Heps.
      - intros e. rewrite Pn. apply Heps.
      - intros e. rewrite Pc. apply Heps. }
    destruct (loop_within _ X _ _ _ _ _ _ _ Hl Hnum Hcl Hw) as (H1 & H2 & H3). split; [apply H1|].
    intros Hef Hnd Hne. destruct H3 as [Hnd' Hids]; [done| |].
    { split; cbn [sl_near sl_visited]; [by rewrite (eids_perm _ _ Pn)|]. intros i. by rewrite (eids_perm _ _ Pn), elem_of_list_to_set. }
    destruct (loop_first fuel X q ef l eps cands near0 s _ x Hl) as (e & v & cs & He & Hv & Hcs & Hall); try done.
    assert (e_id e ∈ eids (sl_near x)) as Hin.
    { apply Hids, H2. cbn [sl_visited]. apply elem_of_list_to_set. apply elem_of_list_fmap. by exists e. }
    split_and!; [done|by intros E; rewrite E in Hin; apply elem_of_nil in Hin|].
    exists e, v, cs. split_and!; try done. intros c0 Hc0. by apply Hids, Hall.
  Qed.

  Lemma descend_within fuel X q l stop e s s' e' :
    exec (descend P t fuel q l stop e) s = Some (s', Val e') -> numbers X q s ->
    (forall m, stop < m -> m <= l -> closed_at X m s) -> egood X q s e -> egood X q s e'.
  Proof.
    revert e s. induction l as [|l IH]; intros e s Hx Hnum Hcl He; cbn [descend] in Hx.
    { apply Some_pair_inj in Hx as [_ Hx]. apply Val_inj in Hx. by subst e'. }
    destruct (stop <? S l) eqn:Es; [|apply Some_pair_inj in Hx as [_ Hx]; apply Val_inj in Hx; by subst e'].
    apply Nat.ltb_lt in Es.
    apply exec_bind_val in Hx as (s1 & near & Hn & Hx). pose proof (pure_search_layer P t fuel _ _ _ _ _ _ _ Hn) as ->.
    apply exec_bind_val in Hx as (s1 & e1 & Hh & Hx). rewrite exec_lift in Hh. apply Some_pair_inj in Hh as [<- Hh].
    destruct (layer_within _ X _ _ _ _ _ _ _ Hn Hnum) as [Hw _]; [by apply Hcl; lia|by intros ? ->%elem_of_list_singleton|].
    eapply IH; [exact Hx|done|intros; apply Hcl; lia|]. apply Hw.
    destruct near; [done|]. apply Val_inj in Hh. subst e1. apply elem_of_list_here.
  Qed.
End cover.

(** ** Linking on a layer leaves the layers below alone *)
Definition keepl (l : nat) (s s' : st) : Prop :=
  (forall i v, nodes s !! i = Some v -> exists v', nodes s' !! i = Some v' /\ v_vec v' = v_vec v /\
     forall m, m < l -> v_conns v' !! m = v_conns v !! m) /\
  (forall i v', nodes s' !! i = Some v' -> is_Some (nodes s !! i)).
Lemma keepl_refl l s : keepl l s s.
Proof. split; [|by eauto]. intros i v Hv. by exists v. Qed.
Lemma keepl_trans l a b c : keepl l a b -> keepl l b c -> keepl l a c.
Proof.
  intros [H1 H2] [H3 H4]. split.
  - intros i v Hv. destruct (H1 _ _ Hv) as (v1 & Hv1 & E1 & C1). destruct (H3 _ _ Hv1) as (v2 & Hv2 & E2 & C2).
    exists v2. split_and!; [done|congruence|]. intros m Hm. rewrite C2 by done. by apply C1.
  - intros i v Hv. destruct (H4 _ _ Hv) as [v1 Hv1]. by eapply H2.
Qed.
Lemma keepl_insert l s i v v' :
  nodes s !! i = Some v -> v_vec v' = v_vec v -> (forall m, m < l -> v_conns v' !! m = v_conns v !! m) ->
  keepl l s (set_nodes (<[i := v']> (nodes s)) s).
Proof.
  intros Hv E C. split; cbn.
  - intros j w Hw. destruct (decide (j = i)) as [->|Hne].
    + rewrite lookup_insert. rewrite Hv in Hw. injection Hw as <-. by exists v'.
    + rewrite lookup_insert_ne by done. by exists w.
  - intros j w. destruct (decide (j = i)) as [->|Hne]; [by rewrite Hv|]. rewrite lookup_insert_ne by done. by eauto.
Qed.
Lemma insert_low {A} l (cs : A) (L : list A) m : m < l -> <[l := cs]> L !! m = L !! m.
Proof. intros H. apply list_lookup_insert_ne. lia. Qed.

Section keep.
  Context (P : hparams) (t fuel : nat).
  Lemma keepl_wal_write l d : steps (keepl l) (wal_write d).
  Proof. destruct d; [|done..]. apply steps_act. intros s. cbn. split; cbn; eauto. Qed.
  Lemma keepl_lock_conns l n : steps (keepl l) (lock_conns t n l).
  Proof.
    apply steps_act_lock. intros s s' r. destruct (nodes s !! n) as [v|] eqn:E; [|intros [= <- <-]; apply keepl_refl].
    destruct (v_lock v); [done|]. destruct (v_conns v !! l) as [cs|]; intros [= <- <-]; by eapply keepl_insert.
  Qed.
  Lemma keepl_add_conn_unlock l n id : steps (keepl l) (add_conn_unlock n l id).
  Proof.
    apply steps_act. intros s. destruct (nodes s !! n) as [v|] eqn:E; [|apply keepl_refl].
    unfold vertex_add_conn. destruct (v_conns v !! l); cbn; [|apply keepl_refl]. eapply keepl_insert; [done..|].
    intros m Hm. by apply insert_low.
  Qed.
  Lemma keepl_set_conns_unlock l n ns : steps (keepl l) (set_conns_unlock n l ns).
  Proof.
    apply steps_act. intros s. destruct (nodes s !! n) as [v|] eqn:E; [|apply keepl_refl].
    unfold vertex_set_conns. destruct (v_conns v !! l); cbn; [|apply keepl_refl]. eapply keepl_insert; [done..|].
    intros m Hm. by apply insert_low.
  Qed.
  Lemma keepl_set_conns_unlocked l n ns : steps (keepl l) (set_conns_unlocked n l ns).
  Proof.
    apply steps_act. intros s. destruct (nodes s !! n) as [v|] eqn:E; [|apply keepl_refl].
    unfold vertex_set_conns. destruct (v_conns v !! l); cbn; [|apply keepl_refl]. eapply keepl_insert; [done..|].
    intros m Hm. by apply insert_low.
  Qed.
  Lemma keepl_read {A} l (f : st -> out A) : steps (keepl l) (act (fun s => (s, f s))).
  Proof. apply steps_act. intros s. apply keepl_refl. Qed.
  Lemma keepl_heur_check l e res : steps (keepl l) (heur_check P e res).
  Proof. induction res as [|r res IH]; cbn [heur_check]; [done|]. steps_tac; [|apply IH]. apply keepl_read. Qed.
  Lemma keepl_heur_loop l n q m res : steps (keepl l) (heur_loop P n q m res).
  Proof.
    revert q res. induction n as [|n IH]; intros q res; cbn [heur_loop]; steps_tac; [apply keepl_heur_check|apply IH].
  Qed.
  Lemma keepl_select l cands m : steps (keepl l) (select_neighbors P cands m).
  Proof. unfold select_neighbors, select_heuristic. destruct (hp_heuristic P); [apply keepl_heur_loop|done]. Qed.
  Lemma keepl_conn_elems l base cs : steps (keepl l) (conn_elems P base cs).
  Proof.
    induction cs as [|c cs IH]; cbn [conn_elems]; [done|]. apply steps_bind; [apply keepl_read|intros ?].
    apply steps_bind; [done|intros ?]. apply steps_bind; [apply IH|done].
  Qed.
  Lemma keepl_link_all l id vec mc ns : steps (keepl l) (link_all P t id vec l mc ns).
  Proof.
    induction ns as [|n ns IH]; cbn [link_all]; [done|]. apply steps_bind; [|intros _; apply IH]. unfold link_one.
    apply steps_bind; [apply keepl_lock_conns|intros [nv cs]]. destruct (_ <? _).
    - apply steps_bind; [apply keepl_wal_write|intros _; apply keepl_add_conn_unlock].
    - apply steps_bind; [done|intros d]. apply steps_bind; [apply keepl_conn_elems|intros es].
      apply steps_bind; [apply keepl_select|intros ns']. apply steps_bind; [apply keepl_wal_write|intros _; apply keepl_set_conns_unlock].
  Qed.

  Lemma keepl_exec {A} l (p : prog st A) s s' r : steps (keepl l) p -> exec p s = Some (s', r) -> keepl l s s'.
  Proof. apply steps_exec; [apply keepl_refl|apply keepl_trans]. Qed.

  Lemma keepl_closed X l m s s' : keepl l s s' -> m < l -> closed_at X m s -> closed_at X m s'.
  Proof.
    intros [H1 H2] Hm Hc i v' cs c Hi Hv' Hcs Hin. destruct (H2 _ _ Hv') as [v Hv]. destruct (H1 _ _ Hv) as (v1 & E & _ & Ec).
    rewrite Hv' in E. injection E as <-. rewrite Ec in Hcs by done. by eapply Hc.
  Qed.
  Lemma keepl_numbers X l q s s' : keepl l s s' -> numbers P X q s -> numbers P X q s'.
  Proof.
    intros [H1 H2] Hn i v' d Hi Hv' Hd. destruct (H2 _ _ Hv') as [v Hv]. destruct (H1 _ _ Hv) as (v1 & E & Ev & _).
    rewrite Hv' in E. injection E as <-. rewrite Ev in Hd. by eapply Hn.
  Qed.
  Lemma keepl_egood X l q s s' e : keepl l s s' -> egood P X q s e -> egood P X q s' e.
  Proof.
    intros [H1 _] (HX & Hn & v & Hv & Hd). split_and!; [done|done|]. destruct (H1 _ _ Hv) as (v1 & Hv1 & E & _).
    exists v1. by rewrite E.
  Qed.
End keep.

(** ** The complete graph on layer 0 *)
Definition cliq (X : gset N) (s : st) : Prop :=
  forall i, i ∈ X -> exists v cs, nodes s !! i = Some v /\ v_conns v !! 0 = Some cs /\ NoDup cs /\
    forall j, j ∈ cs <-> j ∈ X /\ j <> i.
Lemma keepl_cliq X l s s' : 0 < l -> keepl l s s' -> cliq X s -> cliq X s'.
Proof.
  intros Hl [H1 _] Hc i Hi. destruct (Hc i Hi) as (v & cs & Hv & Hcs & Hnd & Hall). destruct (H1 _ _ Hv) as (v1 & Hv1 & _ & Ec).
  exists v1, cs. split_and!; [done|by rewrite Ec|done|done].
Qed.
Lemma cliq_closed X s : cliq X s -> closed_at X 0 s.
Proof.
  intros Hc i v cs c Hi Hv Hcs Hin. destruct (Hc i Hi) as (v1 & cs1 & Hv1 & Hcs1 & _ & Hall).
  rewrite Hv in Hv1. injection Hv1 as <-. rewrite Hcs in Hcs1. injection Hcs1 as <-. by apply Hall.
Qed.
Lemma cliq_length X s i v cs :
  cliq X s -> i ∈ X -> nodes s !! i = Some v -> v_conns v !! 0 = Some cs -> length cs < size X.
Proof.
  intros Hc Hi Hv Hcs. destruct (Hc i Hi) as (v1 & cs1 & Hv1 & Hcs1 & Hnd & Hall).
  rewrite Hv in Hv1. injection Hv1 as <-. rewrite Hcs in Hcs1. injection Hcs1 as <-.
  assert (size (list_to_set (i :: cs) : gset N) = S (length cs)) as Hl.
  { rewrite size_list_to_set; [done|]. constructor; [|done]. intros Hin. apply Hall in Hin. naive_solver. }
  assert (size (list_to_set (i :: cs) : gset N) <= size X); [|lia].
  apply subseteq_size. intros j Hj%elem_of_list_to_set. apply elem_of_cons in Hj as [->|Hj]; [done|]. by apply Hall.
Qed.

Section clique.
  Context (P : hparams) (t fuel : nat).

  (** On the complete graph the bottom layer search finds everything. *)
  Lemma cliq_layer X q eps ef s s' near :
    exec (search_layer P t fuel q eps ef 0) s = Some (s', Val near) -> numbers P X q s -> cliq X s ->
    (forall e, e ∈ eps -> egood P X q s e) -> NoDup (eids eps) -> eps <> [] -> size X <= ef ->
    NoDup (eids near) /\ (forall i, i ∈ eids near <-> i ∈ X) /\ (forall e, e ∈ near -> egood P X q s e).
  Proof.
    intros Hx Hnum Hc Heps Hnd Hne Hef.
    destruct (layer_within P t fuel X q eps ef 0 s s' near Hx Hnum (cliq_closed _ _ Hc) Heps) as [Hin Hall].
    destruct (Hall Hef Hnd Hne) as (Hnd' & Hne' & e & v & cs & He & Hen & Hv & Hcs & Hcov). split_and!; [done| |done].
    intros i. split.
    - intros (e' & -> & He')%elem_of_list_fmap. by apply Hin.
    - intros Hi. destruct (decide (i = e_id e)) as [->|Hne2]; [done|]. apply Hcov.
      destruct (Hc (e_id e) (proj1 (Heps e He))) as (v1 & cs1 & Hv1 & Hcs1 & _ & Hiff).
      rewrite Hv in Hv1. injection Hv1 as <-. rewrite Hcs in Hcs1. injection Hcs1 as <-. by apply Hiff.
  Qed.

  Lemma select_all cands m ids :
    length cands <= m -> select_simple cands m = Val ids -> ids ≡ₚ eids cands.
  Proof.
    intros Hl. unfold select_simple. pose proof (heap_init_perm min_less cands) as Hp.
    assert (length (heap_init min_less cands) = length cands) as Hlen by (by apply Permutation_length).
    rewrite pop_ids_drain by lia. intros [= <-]. rewrite take_ge.
    - unfold eids. rewrite drain_perm; [by rewrite Hp|done].
    - rewrite fmap_length. rewrite (Permutation_length (drain_perm (length (heap_init min_less cands)) (heap_init min_less cands) (le_n _))). lia.
  Qed.

  Lemma link_one_0 id vec mc n s s' v cs :
    exec (link_one P t id vec 0 mc n) s = Some (s', Val tt) -> nodes s !! n = Some v -> v_conns v !! 0 = Some cs ->
    length cs < mc -> nodes s' = <[n := Vertex (<[0 := cs ++ [id]]> (v_conns v)) (v_vec v) None]> (nodes s).
  Proof.
    intros Hx Hv Hcs Hl. unfold link_one in Hx. apply exec_bind_val in Hx as (s1 & [nv cs'] & Hk & Hx).
    unfold lock_conns in Hk. rewrite exec_act_lock, Hv in Hk. destruct (v_lock v); [done|]. rewrite Hcs in Hk.
    apply Some_pair_inj in Hk as [<- Hk]. apply Val_inj, pair_inj in Hk as [<- <-].
    assert ((length cs <? mc) = true) as E by (by apply Nat.ltb_lt). rewrite E in Hx.
    apply exec_bind_val in Hx as (s2 & [] & Hw & Hx). rewrite enc_add_conn_eq in Hw. cbn [wal_write] in Hw. rewrite exec_act in Hw.
    apply Some_pair_inj in Hw as [<- _]. unfold add_conn_unlock in Hx. rewrite exec_act in Hx.
    cbn [nodes wal_append set_nodes set_wal] in Hx. rewrite lookup_insert in Hx. unfold vertex_add_conn in Hx. cbn [v_conns v_vec] in Hx.
    rewrite Hcs in Hx. cbn [or_pan mbind out_bind v_conns v_vec] in Hx. apply Some_pair_inj in Hx as [<- _]. cbn.
    by rewrite insert_insert.
  Qed.

  Lemma link_all_0 id vec mc ns s s' :
    exec (link_all P t id vec 0 mc ns) s = Some (s', Val tt) -> NoDup ns ->
    (forall n, n ∈ ns -> exists v cs, nodes s !! n = Some v /\ v_conns v !! 0 = Some cs /\ length cs < mc) ->
    (forall n v cs, n ∈ ns -> nodes s !! n = Some v -> v_conns v !! 0 = Some cs ->
       exists v', nodes s' !! n = Some v' /\ v_conns v' !! 0 = Some (cs ++ [id])) /\
    (forall n, n ∉ ns -> nodes s' !! n = nodes s !! n).
  Proof.
    revert s. induction ns as [|n ns IH]; intros s Hx Hnd Hall; cbn [link_all] in Hx.
    { apply Some_pair_inj in Hx as [<- _]. split; [by intros ??? ?%elem_of_nil|done]. }
    apply NoDup_cons in Hnd as [Hn Hnd]. apply exec_bind_val in Hx as (s1 & [] & H1 & Hx).
    destruct (Hall n) as (v & cs & Hv & Hcs & Hl); [apply elem_of_list_here|].
    pose proof (link_one_0 _ _ _ _ _ _ _ _ H1 Hv Hcs Hl) as E1.
    assert (forall k, k <> n -> nodes s1 !! k = nodes s !! k) as Hoth.
    { intros k Hk. rewrite E1. by rewrite lookup_insert_ne. }
    destruct (IH s1 Hx Hnd) as [H2 H3].
    { intros k Hk. rewrite Hoth by (by intros ->). apply Hall. by apply elem_of_list_further. }
    split.
    - intros k w ws [->|Hk]%elem_of_cons Hw Hws.
      + rewrite Hv in Hw. injection Hw as <-. rewrite Hcs in Hws. injection Hws as <-.
        eexists. split; [rewrite H3 by done; rewrite E1; apply lookup_insert|]. cbn.
        apply list_lookup_insert. by apply lookup_lt_Some in Hcs.
      + apply (H2 k w ws); [done| |done]. rewrite Hoth; [done|]. by intros ->.
    - intros k Hk. rewrite H3 by set_solver. apply Hoth. set_solver.
  Qed.

  (** The construction phase keeps the bottom layer complete. *)
  Lemma construct_cliq X id vec l eps s s' :
    hp_heuristic P = false -> size X <= hp_efc P -> size X <= hp_m P -> size X <= mMax0 P ->
    exec (construct P t fuel id vec l eps) s = Some (s', Val tt) -> id ∉ X ->
    (exists v, nodes s !! id = Some v /\ v_conns v <> []) ->
    numbers P X vec s -> (forall m, m <= l -> closed_at X m s) -> cliq X s ->
    (forall e, e ∈ eps -> egood P X vec s e) -> NoDup (eids eps) -> eps <> [] ->
    cliq ({[id]} ∪ X) s'.
  Proof.
    intros Hheur Hefc HM Hmx. revert eps s. induction l as [|l IH]; intros eps s Hx Hid Hnode Hnum Hcl Hc Heps Hnd Hne;
      cbn [construct] in Hx;
      apply exec_bind_val in Hx as (s0 & near & Hsl & Hx); pose proof (pure_search_layer P t fuel _ _ _ _ _ _ _ Hsl) as ->;
      apply exec_bind_val in Hx as (s0 & ns & Hns & Hx);
      unfold select_neighbors in Hns; rewrite Hheur, exec_lift in Hns; apply Some_pair_inj in Hns as [<- Hns];
      apply exec_bind_val in Hx as (s1 & [] & Hw & Hx); apply exec_bind_val in Hx as (s2 & [] & Hset & Hx);
      apply exec_bind_val in Hx as (s3 & [] & Hlink & Hx).
    - destruct (cliq_layer X vec eps (hp_efc P) s s near Hsl Hnum Hc Heps Hnd Hne Hefc) as (Hnd' & Hids & _).
      assert (length near <= size X) as Hlen.
      { rewrite <- (fmap_length e_id near). fold (eids near). rewrite <- (size_list_to_set (C := gset N) (eids near)) by done.
        apply subseteq_size. intros i Hi%elem_of_list_to_set. by apply Hids. }
      assert (ns ≡ₚ eids near) as Pns by (apply (select_all near (hp_m P)); [lia|done]).
      apply Some_pair_inj in Hx as [<- _].
      rewrite enc_set_conns_eq in Hw. cbn [wal_write] in Hw. rewrite exec_act in Hw. apply Some_pair_inj in Hw as [<- _].
      destruct Hnode as (vi & Hvi & Hvc). unfold set_conns_unlocked in Hset. rewrite exec_act in Hset.
      cbn [nodes wal_append set_wal] in Hset. rewrite Hvi in Hset. unfold vertex_set_conns in Hset.
      destruct (v_conns vi) as [|c0 cr] eqn:Evc; [done|]. cbn [lookup list_lookup or_pan mbind out_bind v_conns v_vec] in Hset.
      apply Some_pair_inj in Hset as [<- _].
      destruct (link_all_0 _ _ _ _ _ _ Hlink) as [Hin Hout].
      + by rewrite Pns.
      + intros n Hn. rewrite Pns in Hn. apply Hids in Hn. cbn [nodes set_nodes].
        rewrite lookup_insert_ne by (by intros ->). destruct (Hc n Hn) as (v & cs & Hv & Hcs & _). exists v, cs.
        split_and!; [done..|]. pose proof (cliq_length X s n v cs Hc Hn Hv Hcs). lia.
      + intros i [->%elem_of_singleton|Hi]%elem_of_union.
        * eexists _, ns. split; [rewrite Hout; [|by rewrite Pns, Hids]; cbn; apply lookup_insert|]. split_and!; [done|by rewrite Pns|].
          intros j. rewrite Pns, Hids, elem_of_union, elem_of_singleton. split; [|tauto]. intros Hj. split; [by right|]. by intros ->.
        * destruct (Hc i Hi) as (v & cs & Hv & Hcs & Hndc & Hiff).
          destruct (Hin i v cs) as (v' & Hv' & Hcs'); [by rewrite Pns, Hids| |done|].
          { cbn. rewrite lookup_insert_ne; [done|]. by intros ->. }
          exists v', (cs ++ [id]). split_and!; [done|done| |].
          -- apply NoDup_app. split_and!; [done| |apply NoDup_singleton]. intros j Hj ->%elem_of_list_singleton.
             apply Hiff in Hj. tauto.
          -- intros j. rewrite elem_of_app, elem_of_list_singleton, Hiff, elem_of_union, elem_of_singleton.
             split; [intros [? | ->]; [tauto|]|tauto]. split; [by left|]. by intros ->.
    - assert (keepl (S l) s s3) as Hk.
      { eapply keepl_trans; [eapply keepl_exec; [|exact Hw]; apply keepl_wal_write|].
        eapply keepl_trans; [eapply keepl_exec; [|exact Hset]; apply keepl_set_conns_unlocked|].
        eapply keepl_exec; [|exact Hlink]; apply keepl_link_all. }
      destruct (layer_within P t fuel X vec eps (hp_efc P) (S l) s s near Hsl Hnum) as [Hin Hall]; [by apply Hcl|done|].
      destruct (Hall Hefc Hnd Hne) as (Hnd' & Hne' & _).
      apply (IH near s3); try done.
      + destruct Hnode as (vi & Hvi & Hvc). destruct (proj1 Hk _ _ Hvi) as (v' & Hv' & _ & Ec). exists v'. split; [done|].
        intros E. specialize (Ec 0 ltac:(lia)). rewrite E in Ec. destruct (v_conns vi); done.
      + by eapply keepl_numbers.
      + intros m Hm. eapply keepl_closed; [exact Hk|lia|]. apply Hcl. lia.
      + eapply keepl_cliq; [|exact Hk|done]. lia.
      + intros e He. eapply keepl_egood; [exact Hk|by apply Hin].
  Qed.

  Lemma insert_cliq level vec id s s' :
    let X := dom (nodes s) in
    hp_heuristic P = false -> size X <= hp_efc P -> size X <= hp_m P -> size X <= mMax0 P ->
    exec (hnsw_insert P t fuel level vec id) s = Some (s', Val tt) -> nodes s !! id = None ->
    numbers P X vec s -> (forall m, closed_at X m s) -> cliq X s -> (once s = true -> nodes s <> ∅) ->
    is_Some (nodes s !! ep s) \/ nodes s = ∅ ->
    cliq ({[id]} ∪ X) s'.
  Proof.
    intros X Hheur Hefc HM Hmx Hx Hnew Hnum Hcl Hc Honce Hep. unfold hnsw_insert in Hx.
    apply exec_bind_val in Hx as (s1 & first & Hf & Hx). unfold once_insert in Hf. rewrite enc_set_entry_eq, enc_add_vertex_eq in Hf.
    rewrite exec_act in Hf.
    assert (nodes s = ∅ /\ first = true /\ nodes s' = <[id := Vertex (init_conns 0) vec None]> (nodes s) \/
      nodes s <> ∅ /\ first = false /\ nodes s1 = nodes s /\ ep s1 = ep s) as Hcase.
    { destruct (once s) eqn:Eo.
      - apply Some_pair_inj in Hf as [<- Hf]. apply Val_inj in Hf. subst first. right. split_and!; try done. by apply Honce.
      - cbn zeta in Hf. change (nodes (set_once true s)) with (nodes s) in Hf. case_bool_decide as En.
        + apply Some_pair_inj in Hf as [<- Hf]. apply Val_inj in Hf. subst first. left. split_and!; try done.
          cbn in Hx. apply Some_pair_inj in Hx as [<- _]. done.
        + apply Some_pair_inj in Hf as [<- Hf]. apply Val_inj in Hf. subst first. by right. }
    clear Hf. destruct Hcase as [(E & -> & En) | (Hne & -> & En & Ee)].
    { assert (X = ∅) as EX by (unfold X; rewrite E; apply dom_empty_L). rewrite EX.
      intros i Hi. assert (i = id) as -> by set_solver. eexists _, []. rewrite En, lookup_insert.
      split_and!; [done|done|constructor|]. set_solver. }
    destruct Hep as [[epv0 Hep]|?]; [|done].
    assert (id ∉ X) as Hid by (unfold X; by apply not_elem_of_dom).
    apply exec_bind_val in Hx as (s2 & [] & Hw & Hx). rewrite enc_add_vertex_eq in Hw. cbn [wal_write] in Hw. rewrite exec_act in Hw.
    apply Some_pair_inj in Hw as [<- _].
    apply exec_bind_val in Hx as (s3 & [] & Ha & Hx). unfold add_node in Ha. rewrite exec_act in Ha. apply Some_pair_inj in Ha as [E3 _].
    assert (nodes s3 = <[id := Vertex (init_conns level) vec None]> (nodes s)) as N3 by (rewrite <- E3; cbn; by rewrite En).
    assert (ep s3 = ep s) as P3 by (rewrite <- E3; cbn; done). clear E3.
    apply exec_bind_val in Hx as (s4 & [[epid epv] cur] & Hr & Hx). unfold read_entry in Hr. rewrite exec_act in Hr.
    apply Some_pair_inj in Hr as [<- Hr]. rewrite P3 in Hr.
    assert (ep s <> id) as Hei by (intros E; rewrite E in Hep; congruence).
    rewrite N3, lookup_insert_ne in Hr by done. rewrite Hep in Hr. cbn [or_pan mbind out_bind] in Hr. apply Val_inj in Hr.
    apply pair_inj in Hr as [Hr _]. apply pair_inj in Hr as [<- <-].
    assert (forall i v, i ∈ X -> nodes s3 !! i = Some v -> nodes s !! i = Some v) as Hback.
    { intros i v Hi Hv. rewrite N3, lookup_insert_ne in Hv; [done|]. by intros ->. }
    assert (numbers P X vec s3) as Hnum3 by (intros i v d Hi Hv Hd; eapply Hnum; eauto).
    assert (forall m, closed_at X m s3) as Hcl3 by (intros m i v cs c Hi Hv Hcs Hin; eapply Hcl; eauto).
    assert (cliq X s3) as Hc3.
    { intros i Hi. destruct (Hc i Hi) as (v & cs & Hv & Hrest). exists v, cs. split; [|done].
      rewrite N3, lookup_insert_ne; [done|]. by intros ->. }
    assert (ep s ∈ X) as HeX by (unfold X; by eapply elem_of_dom_2).
    apply exec_bind_val in Hx as (s4 & d & Hd & Hx). rewrite exec_lift in Hd. apply Some_pair_inj in Hd as [<- Hd].
    apply exec_bind_val in Hx as (s4 & e & He & Hx). pose proof (pure_descend P t fuel _ _ _ _ _ _ _ He) as ->.
    destruct (descend_within P t fuel X _ _ _ _ _ _ _ He Hnum3) as (HeX' & Hen & Hev); [by auto| |].
    { split_and!; [done|cbn [e_dist]; by eapply Hnum|]. exists epv0. cbn [e_id e_dist]. split; [|done].
      by rewrite N3, lookup_insert_ne. }
    apply exec_bind_val in Hx as (s5 & [] & Hcons & Hx).
    assert (cliq ({[id]} ∪ X) s5) as Hfin.
    { apply (construct_cliq X id vec (Nat.min cur level) [e] s3); try done; auto.
      - eexists. split; [rewrite N3; apply lookup_insert|]. cbn. unfold init_conns. by destruct level.
      - by intros ? ->%elem_of_list_singleton.
      - apply NoDup_singleton. }
    unfold raise_entry in Hx. rewrite enc_set_entry_eq, exec_act in Hx.
    destruct (_ <? _); apply Some_pair_inj in Hx as [<- _]; [|done].
    intros i Hi. destruct (Hfin i Hi) as (v & cs & Hv & Hrest). exists v, cs. split; [|done]. exact Hv.
  Qed.

  (** A search on the complete graph sees every vertex. *)
  Lemma search_cliq q k s s' res :
    let X := dom (nodes s) in
    size X <= hp_ef P -> exec (hnsw_search P t fuel q k) s = Some (s', Val res) ->
    numbers P X q s -> (forall m, closed_at X m s) -> cliq X s ->
    exists near, NoDup (eids near) /\ (forall i, i ∈ eids near <-> i ∈ X) /\
      res = take (Z.to_nat k) (filter (live (deleted s)) (drain (length near) (new_min_heap near))) /\
      forall e, e ∈ near -> egood P X q s e.
  Proof.
    intros X Hef Hx Hnum Hcl Hc. unfold hnsw_search in Hx. destruct (k <? 0)%Z; [done|].
    apply exec_bind_val in Hx as (s4 & [[epid epv] cur] & Hr & Hx). unfold read_entry in Hr. rewrite exec_act in Hr.
    apply Some_pair_inj in Hr as [<- Hr]. destruct (nodes s !! ep s) as [v|] eqn:Hep; [|done]. cbn [or_pan mbind out_bind] in Hr.
    apply Val_inj in Hr. apply pair_inj in Hr as [Hr _]. apply pair_inj in Hr as [<- <-].
    apply exec_bind_val in Hx as (s4 & d & Hd & Hx). rewrite exec_lift in Hd. apply Some_pair_inj in Hd as [<- Hd].
    apply exec_bind_val in Hx as (s4 & e & He & Hx). pose proof (pure_descend P t fuel _ _ _ _ _ _ _ He) as ->.
    assert (ep s ∈ X) as HeX by (unfold X; by eapply elem_of_dom_2).
    destruct (descend_within P t fuel X _ _ _ _ _ _ _ He Hnum) as (HeX' & Hen & Hev); [by auto| |].
    { split_and!; [done|cbn [e_dist]; by eapply Hnum|]. by exists v. }
    apply exec_bind_val in Hx as (s4 & near & Hsl & Hx). pose proof (pure_search_layer P t fuel _ _ _ _ _ _ _ Hsl) as ->.
    apply exec_bind_val in Hx as (s4 & dels & Hdl & Hx). rewrite exec_act in Hdl. apply Some_pair_inj in Hdl as [<- Hdl].
    apply Val_inj in Hdl. subst dels. rewrite exec_lift in Hx. apply Some_pair_inj in Hx as [_ Hx].
    destruct (cliq_layer X q [e] (hp_ef P) s s near Hsl Hnum Hc) as (Hnd & Hids & Hgood); [by intros ? ->%elem_of_list_singleton|apply NoDup_singleton|done|done|].
    exists near. split_and!; [done|done| |done].
    rewrite take_live_ok in Hx; [by apply Val_inj in Hx|]. unfold new_min_heap. by rewrite (Permutation_length (heap_init_perm min_less near)).
  Qed.
End clique.
