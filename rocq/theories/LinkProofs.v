(** What one insert, made alone, does to the graph. *)
From stdpp Require Import sorting.
From Verif Require Import GoBase FloatModel HeapModel ProgModel StateModel WalModel HnswModel CollModel
  ProofBase CodecProofs FloatProofs HeapProofs WpProofs HnswProofs IndexProofs StepProofs SeqLog IndexHist CallProofs HistProofs
  SimProofs WalProofs StoreView RestoreProofs ExactProofs PropIndex.
From Coq Require Import SpecFloat.
Open Scope nat_scope.

(** ** What a selection of neighbours is *)
(** [ns] is a right choice of at most [m] of [cands]; which one is said for
    candidates without NaN distances. *)
Definition picks (P : hparams) (s : st) (cands : list elem) (m : nat) (ns : list N) : Prop :=
  NoDup ns /\ length ns <= m /\ (forall n, n ∈ ns -> n ∈ e_id <$> cands) /\ (0 < m -> cands <> [] -> ns <> []) /\
  (Forall (fun e => e_dist e <> S754_nan) cands ->
    if hp_heuristic P then
      exists order, order ≡ₚ cands /\ StronglySorted not_further order /\ ns `sublist_of` (e_id <$> order) /\
        forall i e, order !! i = Some e ->
          let before := filter (fun x => x ∈ ns) (e_id <$> take i order) in
          e_id e ∈ ns <-> length before < m /\ forall r, r ∈ before -> ~ shadows P s r e
    else
      exists chosen rest, cands ≡ₚ chosen ++ rest /\ ns = e_id <$> chosen /\ length chosen = Nat.min m (length cands) /\
        StronglySorted not_further chosen /\ forall c r, c ∈ chosen -> r ∈ rest -> not_further c r).

(** Only the vectors of the vertices matter. *)
Definition same_vecs (s s' : st) : Prop := forall i, v_vec <$> nodes s' !! i = v_vec <$> nodes s !! i.
Lemma same_vecs_refl s : same_vecs s s. Proof. done. Qed.
Lemma same_vecs_trans a b c : same_vecs a b -> same_vecs b c -> same_vecs a c.
Proof. intros H1 H2 i. by rewrite H2, H1. Qed.
Lemma same_vecs_sym a b : same_vecs a b -> same_vecs b a.
Proof. intros H i. by rewrite H. Qed.
Lemma same_vecs_some s s' i v : same_vecs s s' -> nodes s !! i = Some v -> exists v', nodes s' !! i = Some v' /\ v_vec v' = v_vec v.
Proof. intros H Hv. specialize (H i). rewrite Hv in H. destruct (nodes s' !! i) as [v'|]; [|done]. injection H as E. by exists v'. Qed.
Lemma shadows_vecs P s s' r e : same_vecs s s' -> shadows P s r e -> shadows P s' r e.
Proof.
  intros H (a & b & d & Ha & Hb & Hd & Hl). destruct (same_vecs_some _ _ _ _ H Ha) as (a' & Ha' & Ea).
  destruct (same_vecs_some _ _ _ _ H Hb) as (b' & Hb' & Eb). exists a', b', d. by rewrite Ea, Eb.
Qed.
Lemma picks_vecs P s s' cands m ns : same_vecs s s' -> picks P s cands m ns -> picks P s' cands m ns.
Proof.
  intros H (H1 & H2 & H3 & H4 & H5). split_and!; [done..|]. intros Hn. specialize (H5 Hn). destruct (hp_heuristic P); [|done].
  destruct H5 as (order & Ho & Hs & Hsub & Hi). exists order. split_and!; [done..|]. intros i e He. cbn zeta. rewrite (Hi i e He). cbn zeta.
  split; intros [Hl Hr]; (split; [done|]); intros r Hin Hsh; apply (Hr r Hin); eapply shadows_vecs; [|exact Hsh|..|exact Hsh]; [by apply same_vecs_sym|done].
Qed.

Section sel.
  Context (P : hparams) (s : st).
  Context (Hd : forall a b va vb, nodes s !! a = Some va -> nodes s !! b = Some vb -> exists d, dist P (v_vec va) (v_vec vb) = Val d).

  Lemma select_picks cands m s' ns :
    exec (select_neighbors P cands m) s = Some (s', Val ns) -> NoDup (e_id <$> cands) ->
    Forall (fun e => is_Some (nodes s !! e_id e)) cands -> s' = s /\ picks P s cands m ns.
  Proof using Hd.
    intros Hx Hnd Hpr. unfold select_neighbors in Hx. set (h := heap_init min_less cands).
    pose proof (heap_init_perm min_less cands) as Hp. fold h in Hp.
    assert (length h = length cands) as Hl by by apply Permutation_length.
    assert (drain (length h) h ≡ₚ cands) as Ho by (by rewrite drain_perm).
    assert (NoDup (e_id <$> drain (length h) h)) as Hnd' by (by rewrite Ho).
    assert (Forall (fun e => e_dist e <> S754_nan) cands -> StronglySorted not_further (drain (length h) h)) as Hsort.
    { intros Hn. assert (Forall enum cands) as Hnum by (eapply Forall_impl; [exact Hn|]; intros e; apply num_nan).
      apply drain_sorted; [unfold h; by rewrite heap_init_perm|].
      by apply (heap_init_ok min_less enum min_less_irr min_less_asym min_less_ntrans). }
    unfold picks. destruct (hp_heuristic P).
    - unfold select_heuristic in Hx. fold h in Hx. rewrite <- Hl in Hx. rewrite exec_heur_loop in Hx; [|done|done| |constructor]; [|by rewrite Hp].
      destruct (greedy_spec P s m (drain (length h) h) []) as (chosen & Eg & Hsub & Hlen & Hspec); [cbn; lia|].
      rewrite Eg in Hx. apply Some_pair_inj in Hx as [<- Hx]. apply Val_inj in Hx. cbn [app] in Hx, Hlen, Hspec. subst chosen.
      split; [done|]. specialize (Hspec Hnd'). split_and!.
      + by eapply sublist_NoDup.
      + done.
      + intros n Hn. rewrite <- Ho. eapply elem_of_submseteq; [exact Hn|]. by apply sublist_submseteq.
      + intros Hm Hne E. destruct (drain (length h) h) as [|e0 o0] eqn:Eo; [by apply Permutation_nil in Ho|].
        specialize (Hspec 0 e0 eq_refl). cbn in Hspec. rewrite E in Hspec. assert (e_id e0 ∈ ([] : list N)) as Hin; [|by apply elem_of_nil in Hin].
        apply Hspec. split; [cbn; lia|]. by intros r ?%elem_of_nil.
      + intros Hn. exists (drain (length h) h). split_and!; [done|by apply Hsort|done|done].
    - rewrite exec_lift in Hx. apply Some_pair_inj in Hx as [<- Hx]. unfold select_simple in Hx. fold h in Hx.
      rewrite pop_ids_drain in Hx by lia. apply Val_inj in Hx. rewrite <- fmap_take in Hx. subst ns. split; [done|].
      set (k := Nat.min m (length cands)).
      assert (take k (drain (length h) h) ++ drop k (drain (length h) h) = drain (length h) h) as Etd by apply take_drop.
      assert (length (drain (length h) h) = length cands) as Hld by by apply Permutation_length.
      split_and!.
      + eapply sublist_NoDup; [|exact Hnd']. rewrite fmap_take. apply sublist_take.
      + rewrite fmap_length, take_length. lia.
      + intros n Hn. rewrite <- Ho. eapply elem_of_submseteq; [exact Hn|]. rewrite fmap_take. apply sublist_submseteq, sublist_take.
      + intros Hm Hne E. apply (f_equal length) in E. rewrite fmap_length, take_length in E. cbn in E. destruct cands; [done|]. cbn [length] in *. lia.
      + intros Hn. specialize (Hsort Hn). exists (take k (drain (length h) h)), (drop k (drain (length h) h)). rewrite <- Etd in Hsort. split_and!.
        * by rewrite Etd.
        * done.
        * rewrite take_length. lia.
        * revert Hsort. generalize (take k (drain (length h) h)) (drop k (drain (length h) h)). intros a b Hs.
          induction a as [|x a IH]; cbn in Hs; [constructor|]. inversion_clear Hs as [|?? Hs' Hx]. constructor; [by apply IH|].
          by apply Forall_app in Hx as [? _].
        * revert Hsort. generalize (take k (drain (length h) h)) (drop k (drain (length h) h)). intros a b Hs c r Hc Hr.
          induction a as [|x a IH]; cbn in Hs; [by apply elem_of_nil in Hc|]. inversion_clear Hs as [|?? Hs' Hx].
          apply elem_of_cons in Hc as [->|Hc]; [|by apply IH]. apply Forall_app in Hx as [_ Hx]. rewrite Forall_forall in Hx. by apply Hx.
  Qed.
End sel.

(** ** What a layer search finds *)
Section layer.
  Context (P : hparams) (t fuel : nat).

  (** [e] names a vertex of [X] with its distance to [q]. *)
  Definition eof (X : gset N) (q : fvec) (s : st) (e : elem) : Prop :=
    e_id e ∈ X /\ exists v, nodes s !! e_id e = Some v /\ dist P (v_vec v) q = Val (e_dist e).
  Record searching (X : gset N) (q : fvec) (ef : nat) (s : st) (x : slstate) : Prop := MkSearching {
    se_near : forall e, e ∈ sl_near x -> eof X q s e;
    se_cands : forall e, e ∈ sl_cands x -> eof X q s e;
    se_nd : NoDup (eids (sl_near x));
    se_vis : forall i, i ∈ eids (sl_near x) -> i ∈ sl_visited x;
    se_ne : sl_near x <> [];
    se_len : length (sl_near x) <= ef
  }.

  Lemma consider_searching X q s ef nid d x x' :
    searching X q ef s x -> eof X q s (Elem nid d) -> nid ∉ sl_visited x ->
    consider ef nid d (SL ({[nid]} ∪ sl_visited x) (sl_cands x) (sl_near x)) = Val x' -> searching X q ef s x'.
  Proof.
    intros [Hn Hc Hnd Hv Hne Hl] Hd Hni. unfold consider. cbn [sl_near sl_cands sl_visited].
    destruct (heap_peek (sl_near x)) as [f| |]; cbn [mbind out_bind]; [|done..].
    destruct (_ || _).
    2:{ intros [= <-]. split; cbn [sl_near sl_cands sl_visited]; try done. intros i Hi. specialize (Hv i Hi). set_solver. }
    pose proof (heap_push_perm max_less (sl_near x) (Elem nid d)) as Pn. pose proof (heap_push_perm min_less (sl_cands x) (Elem nid d)) as Pc.
    pose proof (eids_perm _ _ Pn) as Pe. change (eids (Elem nid d :: sl_near x)) with (nid :: eids (sl_near x)) in Pe.
    assert (forall e, e ∈ heap_push min_less (sl_cands x) (Elem nid d) -> eof X q s e) as Hc'.
    { intros e He. rewrite Pc in He. apply elem_of_cons in He as [->|He]; [done|by apply Hc]. }
    assert (forall e, e ∈ heap_push max_less (sl_near x) (Elem nid d) -> eof X q s e) as Hn'.
    { intros e He. rewrite Pn in He. apply elem_of_cons in He as [->|He]; [done|by apply Hn]. }
    assert (NoDup (eids (heap_push max_less (sl_near x) (Elem nid d)))) as Hnd'.
    { rewrite Pe. constructor; [|done]. intros Hin. apply Hni. by apply Hv. }
    assert (forall i, i ∈ eids (heap_push max_less (sl_near x) (Elem nid d)) -> i ∈ {[nid]} ∪ sl_visited x) as Hv'.
    { intros i Hi. rewrite Pe in Hi. apply elem_of_cons in Hi as [->|Hi]; [set_solver|]. specialize (Hv i Hi). set_solver. }
    pose proof (Permutation_length Pn) as Ln. cbn [length] in Ln.
    destruct (ef <? _) eqn:El.
    - destruct (heap_pop max_less _) as [[e near']| |] eqn:Ep; cbn [mbind out_bind]; [|done..]. intros [= <-].
      pose proof (heap_pop_perm _ _ _ _ Ep) as Pp. pose proof (eids_perm _ _ Pp) as Pq. change (eids (e :: near')) with (e_id e :: eids near') in Pq.
      pose proof (Permutation_length Pp) as Lp. cbn [length] in Lp.
      split; cbn [sl_near sl_cands sl_visited].
      + intros e' He'. apply Hn'. rewrite Pp. by right.
      + done.
      + rewrite Pq in Hnd'. by apply NoDup_cons in Hnd' as [_ ?].
      + intros i Hi. apply Hv'. rewrite Pq. by right.
      + intros ->. destruct (sl_near x); [done|]. cbn in *. lia.
      + lia.
    - apply Nat.ltb_ge in El. intros [= <-]. split; cbn [sl_near sl_cands sl_visited]; try done.
      intros E. rewrite E in Ln. done.
  Qed.

  Lemma visit_searching X q ef cs x s s' x' :
    exec (visit_conns P q ef cs x) s = Some (s', Val x') -> (forall c, c ∈ cs -> c ∈ X) ->
    searching X q ef s x -> searching X q ef s x'.
  Proof.
    revert x s. induction cs as [|c cs IH]; intros x s Hx Hcs Hw; cbn [visit_conns] in Hx.
    { apply Some_pair_inj in Hx as [_ Hx]. apply Val_inj in Hx. by subst x'. }
    assert (forall c', c' ∈ cs -> c' ∈ X) as Hcs' by (intros; apply Hcs; by right).
    case_bool_decide as Hv; [by eapply IH|].
    apply exec_bind_val in Hx as (s1 & f & Hf1 & Hx). rewrite exec_lift in Hf1. apply Some_pair_inj in Hf1 as [<- _].
    apply exec_bind_val in Hx as (s2 & nb & Hnb & Hx). unfold read_vertex in Hnb. rewrite exec_act in Hnb.
    apply Some_pair_inj in Hnb as [<- Hnb]. destruct (nodes s !! c) as [v|] eqn:Ec; [|done]. apply Val_inj in Hnb. subst nb.
    apply exec_bind_val in Hx as (s3 & d & Hd & Hx). rewrite exec_lift in Hd. apply Some_pair_inj in Hd as [<- Hd].
    apply exec_bind_val in Hx as (s4 & x1 & Hx1 & Hx). rewrite exec_lift in Hx1. apply Some_pair_inj in Hx1 as [<- Hx1].
    eapply IH; [exact Hx|done|]. eapply consider_searching; [exact Hw| |exact Hv|exact Hx1].
    split; [apply Hcs; by left|by exists v].
  Qed.

  Lemma loop_searching n X q ef l x s s' x' :
    exec (search_loop P t n q ef l x) s = Some (s', Val x') -> closed_at X l s ->
    searching X q ef s x -> searching X q ef s x'.
  Proof.
    revert x s. induction n as [|n IH]; intros x s Hx Hcl Hw; cbn [search_loop] in Hx.
    { destruct (sl_cands x); [|done]. apply Some_pair_inj in Hx as [_ Hx]. apply Val_inj in Hx. by subst x'. }
    destruct (sl_cands x) as [|c0 cs0] eqn:Ec.
    { apply Some_pair_inj in Hx as [_ Hx]. apply Val_inj in Hx. by subst x'. }
    rewrite <- Ec in Hx. clear c0 cs0 Ec.
    apply exec_bind_val in Hx as (s1 & [c cands] & Hp & Hx). rewrite exec_lift in Hp. apply Some_pair_inj in Hp as [<- Hp].
    apply exec_bind_val in Hx as (s1 & f & Hpk & Hx). rewrite exec_lift in Hpk. apply Some_pair_inj in Hpk as [<- _].
    pose proof (heap_pop_perm _ _ _ _ Hp) as Hperm.
    assert (searching X q ef s (SL (sl_visited x) cands (sl_near x))) as Hw0.
    { destruct Hw as [Hn Hc Hnd Hv Hne Hl]. split; cbn [sl_visited sl_near sl_cands]; try done. intros e He. apply Hc. rewrite Hperm. by right. }
    destruct (fltb _ _).
    { apply Some_pair_inj in Hx as [_ Hx]. apply Val_inj in Hx. by subst x'. }
    apply exec_bind_val in Hx as (s1 & conns & Hr & Hx). pose proof (pure_read_conns P t _ _ _ _ _ Hr) as ->.
    unfold read_conns in Hr. rewrite exec_act_lock in Hr. destruct (nodes s !! e_id c) as [v|] eqn:En; [|done].
    destruct (v_lock v); [done|]. destruct (v_conns v !! l) as [cs|] eqn:El; [|done]. case_decide; [|done].
    apply Some_pair_inj in Hr as [_ Hr]. apply Val_inj in Hr. subst conns.
    apply exec_bind_val in Hx as (s1 & x1 & Hvs & Hx). pose proof (pure_visit_conns P _ _ _ _ _ _ _ Hvs) as ->.
    eapply IH; [exact Hx|done|]. eapply visit_searching; [exact Hvs| |exact Hw0].
    intros c' Hc'. eapply Hcl; [|done..]. apply (se_cands _ _ _ _ _ Hw). rewrite Hperm. by left.
  Qed.

  Lemma layer_searching X q eps ef l s s' near :
    exec (search_layer P t fuel q eps ef l) s = Some (s', Val near) -> closed_at X l s ->
    (forall e, e ∈ eps -> eof X q s e) -> NoDup (eids eps) -> eps <> [] -> length eps <= ef ->
    s' = s /\ (forall e, e ∈ near -> eof X q s e) /\ NoDup (eids near) /\ near <> [] /\ length near <= ef.
  Proof.
    intros Hx Hcl Heps Hnd Hne Hl. split; [by eapply pure_search_layer|]. unfold search_layer in Hx.
    apply exec_bind_val in Hx as (s1 & cands & Hc & Hx). rewrite exec_lift in Hc. apply Some_pair_inj in Hc as [<- Hc].
    apply exec_bind_val in Hx as (s1 & near0 & Hn & Hx). rewrite exec_lift in Hn. apply Some_pair_inj in Hn as [<- Hn].
    apply exec_bind_val in Hx as (s1 & x & Hlp & Hx). apply Some_pair_inj in Hx as [_ Hx]. apply Val_inj in Hx. subst near.
    unfold new_min_heap_deep in Hc. unfold new_max_heap_deep in Hn. case_decide; [|done]. apply Val_inj in Hc, Hn.
    assert (cands ≡ₚ eps) as Pc by (subst cands; apply heap_init_perm).
    assert (near0 ≡ₚ eps) as Pn by (subst near0; apply heap_init_perm).
    assert (searching X q ef s (SL (list_to_set (e_id <$> eps)) cands near0)) as Hw.
    { split; cbn [sl_visited sl_near sl_cands].
      - intros e. rewrite Pn. apply Heps.
      - intros e. rewrite Pc. apply Heps.
      - by rewrite (eids_perm _ _ Pn).
      - intros i. rewrite (eids_perm _ _ Pn). by rewrite elem_of_list_to_set.
      - intros ->. by apply Permutation_nil in Pn.
      - by rewrite (Permutation_length Pn). }
    destruct (loop_searching _ X _ _ _ _ _ _ _ Hlp Hcl Hw). done.
  Qed.

  Lemma descend_searching X q l stop e s s' e' :
    exec (descend P t fuel q l stop e) s = Some (s', Val e') ->
    (forall m, stop < m -> m <= l -> closed_at (X m) m s) -> (forall m, X (S m) ⊆ X m) ->
    eof (X l) q s e -> s' = s /\ eof (X (Nat.min l stop)) q s e'.
  Proof.
    intros Hx Hcl HX He. split; [by eapply pure_descend|]. revert e s Hx Hcl He. induction l as [|l IH]; intros e s Hx Hcl He; cbn [descend] in Hx.
    { apply Some_pair_inj in Hx as [_ Hx]. apply Val_inj in Hx. by subst e'. }
    destruct (stop <? S l) eqn:Es.
    2:{ apply Nat.ltb_ge in Es. apply Some_pair_inj in Hx as [_ Hx]. apply Val_inj in Hx. subst e'. by rewrite Nat.min_l by lia. }
    apply Nat.ltb_lt in Es.
    apply exec_bind_val in Hx as (s1 & near & Hn & Hx).
    destruct (layer_searching (X (S l)) _ _ _ _ _ _ _ Hn) as (-> & Hw & _ & Hne & _); [by apply Hcl|by intros ? ->%elem_of_list_singleton|apply NoDup_singleton|done|done|].
    apply exec_bind_val in Hx as (s1 & e1 & Hh & Hx). rewrite exec_lift in Hh. apply Some_pair_inj in Hh as [<- Hh].
    replace (Nat.min (S l) stop) with (Nat.min l stop) by lia.
    eapply IH; [exact Hx|intros; apply Hcl; lia|].
    destruct near; [done|]. apply Val_inj in Hh. subst e1. destruct (Hw _ (elem_of_list_here _ _)) as [H1 H2]. split; [by apply HX|done].
  Qed.
End layer.

(** ** Linking back *)
(** How the list of a chosen neighbour changes, when it may be [mc] long. *)
Definition relinked (P : hparams) (s : st) (v : vertex) (vec : fvec) (id : N) (mc : nat) (cs cs' : list N) : Prop :=
  (length cs < mc -> cs' = cs ++ [id]) /\
  (mc <= length cs -> exists d es, dist_func (hp_dist P) (v_vec v) vec = Val d /\
     Forall2 (fun c e => e_id e = c /\ exists w, nodes s !! c = Some w /\ dist_func (hp_dist P) (v_vec v) (v_vec w) = Val (e_dist e)) cs es /\
     picks P s (Elem id d :: es) mc cs').
Lemma relinked_vecs P s s' v v' vec id mc cs cs' :
  same_vecs s s' -> v_vec v' = v_vec v -> relinked P s v vec id mc cs cs' -> relinked P s' v' vec id mc cs cs'.
Proof.
  intros H E [H1 H2]. split; [done|]. intros Hl. destruct (H2 Hl) as (d & es & Hd & Hes & Hp). exists d, es. rewrite E. split_and!; [done| |by eapply picks_vecs].
  eapply Forall2_impl; [exact Hes|]. intros c e (Hc & w & Hw & Hdw). split; [done|].
  destruct (same_vecs_some _ _ _ _ H Hw) as (w' & Hw' & Ew). exists w'. by rewrite Ew.
Qed.

Definition dist_all (P : hparams) (s : st) : Prop :=
  forall a b va vb, nodes s !! a = Some va -> nodes s !! b = Some vb -> exists d, dist P (v_vec va) (v_vec vb) = Val d.
Lemma dist_all_vecs P s s' : same_vecs s s' -> dist_all P s -> dist_all P s'.
Proof.
  intros H%same_vecs_sym Hd a b va vb Ha Hb. destruct (same_vecs_some _ _ _ _ H Ha) as (a' & Ha' & Ea).
  destruct (same_vecs_some _ _ _ _ H Hb) as (b' & Hb' & Eb). rewrite <- Ea, <- Eb. by eapply Hd.
Qed.
Lemma same_vecs_set s n v v' : nodes s !! n = Some v -> v_vec v' = v_vec v -> same_vecs s (set_nodes (<[n := v']> (nodes s)) s).
Proof. intros Hv E i. cbn. destruct (decide (i = n)) as [->|Hne]; [by rewrite lookup_insert, Hv; cbn; rewrite E|by rewrite lookup_insert_ne]. Qed.
Lemma same_vecs_nodes s s' : nodes s' = nodes s -> same_vecs s s'. Proof. intros E i. by rewrite E. Qed.
(** The entry point and the top layer stay. *)
Definition same_top (s s' : st) : Prop := ep s' = ep s /\ maxl s' = maxl s.

Section link.
  Context (P : hparams) (t fuel : nat).

  Lemma conn_elems_ok base cs s s' es :
    exec (conn_elems P base cs) s = Some (s', Val es) -> s' = s /\
    Forall2 (fun c e => e_id e = c /\ exists w, nodes s !! c = Some w /\ dist_func (hp_dist P) base (v_vec w) = Val (e_dist e)) cs es.
  Proof.
    revert es s'. induction cs as [|c cs IH]; intros es s' Hx; cbn [conn_elems] in Hx.
    { apply Some_pair_inj in Hx as [<- Hx]. apply Val_inj in Hx. subst es. split; [done|constructor]. }
    apply exec_bind_val in Hx as (s1 & nv & H1 & Hx). unfold read_vertex in H1. rewrite exec_act in H1.
    apply Some_pair_inj in H1 as [<- H1]. destruct (nodes s !! c) as [w|] eqn:Ew; [|done]. apply Val_inj in H1. subst nv.
    apply exec_bind_val in Hx as (s1 & d & H2 & Hx). rewrite exec_lift in H2. apply Some_pair_inj in H2 as [<- H2].
    apply exec_bind_val in Hx as (s1 & es0 & H3 & Hx). destruct (IH es0 _ H3) as [-> H4].
    apply Some_pair_inj in Hx as [<- Hx]. apply Val_inj in Hx. subst es. split; [done|]. constructor; [|done]. split; [done|by exists w].
  Qed.

  Lemma link_one_ok id vec l mc n s s' v cs :
    exec (link_one P t id vec l mc n) s = Some (s', Val tt) -> nodes s !! n = Some v -> v_conns v !! l = Some cs ->
    dist_all P s -> NoDup (id :: cs) -> Forall (fun c => is_Some (nodes s !! c)) (id :: cs) ->
    exists cs', nodes s' = <[n := Vertex (<[l := cs']> (v_conns v)) (v_vec v) None]> (nodes s) /\
      relinked P s v vec id mc cs cs' /\ same_top s s'.
  Proof.
    intros Hx Hv Hcs Hd Hnd Hpr. unfold link_one in Hx. apply exec_bind_val in Hx as (s1 & [nv cs'] & Hk & Hx).
    unfold lock_conns in Hk. rewrite exec_act_lock, Hv in Hk. destruct (v_lock v); [done|]. rewrite Hcs in Hk.
    apply Some_pair_inj in Hk as [E1 Hk]. apply Val_inj, pair_inj in Hk as [<- <-].
    set (vl := Vertex (v_conns v) (v_vec v) (Some t)) in *.
    assert (same_vecs s s1) as Hs1 by (rewrite <- E1; by eapply same_vecs_set).
    assert (nodes s1 = <[n := vl]> (nodes s)) as N1 by by rewrite <- E1.
    assert (same_top s s1) as T1 by (by rewrite <- E1). clear E1.
    destruct (length cs <? mc) eqn:El.
    - apply Nat.ltb_lt in El. exists (cs ++ [id]).
      apply exec_bind_val in Hx as (s2 & [] & Hw & Hx). rewrite enc_add_conn_eq in Hw. cbn [wal_write] in Hw. rewrite exec_act in Hw.
      apply Some_pair_inj in Hw as [<- _]. unfold add_conn_unlock in Hx. rewrite exec_act in Hx.
      cbn [nodes wal_append set_nodes set_wal] in Hx. rewrite N1, lookup_insert in Hx. unfold vertex_add_conn in Hx. cbn [v_conns v_vec vl] in Hx.
      rewrite Hcs in Hx. cbn [or_pan mbind out_bind v_conns v_vec] in Hx. apply Some_pair_inj in Hx as [<- _]. cbn.
      rewrite insert_insert. split; [done|]. split; [|exact T1]. split; [done|lia].
    - apply Nat.ltb_ge in El.
      apply exec_bind_val in Hx as (s2 & d & H2 & Hx). rewrite exec_lift in H2. apply Some_pair_inj in H2 as [<- H2].
      apply exec_bind_val in Hx as (s2 & es & H3 & Hx). destruct (conn_elems_ok _ _ _ _ _ H3) as [-> Hes].
      assert (eids es = cs) as Ees.
      { clear -Hes. induction Hes as [|c e cs es (E & _) _ IH]; [done|]. cbn. by rewrite E, <- IH. }
      apply exec_bind_val in Hx as (s2 & ns & H4 & Hx).
      destruct (select_picks P s1 (dist_all_vecs _ _ _ Hs1 Hd) _ _ _ _ H4) as [-> Hp].
      { cbn. change (NoDup (id :: eids es)). by rewrite Ees. }
      { assert (Forall (fun c => is_Some (nodes s1 !! c)) (id :: cs)) as Hpr1.
        { eapply Forall_impl; [exact Hpr|]. intros c [w Hw]. destruct (same_vecs_some _ _ _ _ Hs1 Hw) as (w' & Hw' & _). by exists w'. }
        apply Forall_cons in Hpr1 as [H5 H6]. constructor; [done|]. rewrite <- Ees in H6. unfold eids in H6. by rewrite Forall_fmap in H6. }
      exists ns. rewrite enc_set_conns_eq in Hx. apply exec_bind_val in Hx as (s3 & [] & Hw & Hx). cbn [wal_write] in Hw. rewrite exec_act in Hw.
      apply Some_pair_inj in Hw as [<- _]. unfold set_conns_unlock in Hx. rewrite exec_act in Hx.
      cbn [nodes wal_append set_nodes set_wal] in Hx. rewrite N1, lookup_insert in Hx. unfold vertex_set_conns in Hx. cbn [v_conns v_vec vl] in Hx.
      rewrite Hcs in Hx. cbn [or_pan mbind out_bind v_conns v_vec] in Hx. apply Some_pair_inj in Hx as [<- _]. cbn.
      rewrite insert_insert. split; [done|]. split; [|exact T1]. 
      eapply (relinked_vecs P s1 s vl v); [by apply same_vecs_sym|done|]. split; [lia|]. intros _. exists d, es. split_and!; done.
  Qed.

  Lemma link_all_ok id vec l mc ns s s' :
    exec (link_all P t id vec l mc ns) s = Some (s', Val tt) -> NoDup ns -> dist_all P s -> is_Some (nodes s !! id) ->
    (forall n, n ∈ ns -> exists v cs, nodes s !! n = Some v /\ v_conns v !! l = Some cs /\ NoDup (id :: cs) /\ Forall (fun c => is_Some (nodes s !! c)) cs) ->
    same_vecs s s' /\ same_top s s' /\ (forall n, n ∉ ns -> nodes s' !! n = nodes s !! n) /\
    (forall n v cs, n ∈ ns -> nodes s !! n = Some v -> v_conns v !! l = Some cs ->
       exists cs' v', nodes s' !! n = Some v' /\ v_conns v' = <[l := cs']> (v_conns v) /\ v_vec v' = v_vec v /\ relinked P s v vec id mc cs cs').
  Proof.
    revert s. induction ns as [|n ns IH]; intros s Hx Hnd Hd Hid Hall; cbn [link_all] in Hx.
    { apply Some_pair_inj in Hx as [<- _]. split_and!; [done|done|done|]. by intros ??? ?%elem_of_nil. }
    apply NoDup_cons in Hnd as [Hn Hnd]. apply exec_bind_val in Hx as (s1 & [] & H1 & Hx).
    destruct (Hall n) as (v & cs & Hv & Hcs & Hndc & Hpr); [apply elem_of_list_here|].
    destruct (link_one_ok _ _ _ _ _ _ _ _ _ H1 Hv Hcs Hd Hndc) as (cs' & E1 & Hre & [T1 T1']); [by constructor|].
    assert (forall k, k <> n -> nodes s1 !! k = nodes s !! k) as Hoth.
    { intros k Hk. rewrite E1. by rewrite lookup_insert_ne. }
    assert (same_vecs s s1) as Hs1.
    { intros i. rewrite E1. destruct (decide (i = n)) as [->|Hne]; [by rewrite lookup_insert, Hv|by rewrite lookup_insert_ne]. }
    assert (forall k, is_Some (nodes s !! k) -> is_Some (nodes s1 !! k)) as Hpres.
    { intros k [w Hw]. destruct (same_vecs_some _ _ _ _ Hs1 Hw) as (w' & Hw' & _). by exists w'. }
    destruct (IH s1 Hx Hnd) as (H2 & [T2 T2'] & H3 & H4).
    { by eapply dist_all_vecs. }
    { by apply Hpres. }
    { intros k Hk. destruct (Hall k) as (w & ws & Hw & Hws & H5 & H6); [by right|]. exists w, ws. rewrite Hoth by (by intros ->). split_and!; [done..|].
      eapply Forall_impl; [exact H6|]. intros c. apply Hpres. }
    split_and!; [by eapply same_vecs_trans|split; congruence| |].
    - intros k [Hk1 Hk2]%not_elem_of_cons. rewrite H3 by done. by apply Hoth.
    - intros k w ws [->|Hk]%elem_of_cons Hw Hws.
      + rewrite Hv in Hw. injection Hw as <-. rewrite Hcs in Hws. injection Hws as <-.
        exists cs'. eexists. split; [rewrite H3 by done; rewrite E1; apply lookup_insert|]. done.
      + destruct (H4 k w ws) as (ws' & w' & Hw' & Hc' & Ev' & Hr'); [done| |done|].
        { rewrite Hoth; [done|]. by intros ->. }
        exists ws', w'. split_and!; [done..|]. eapply relinked_vecs; [|reflexivity|exact Hr']. by apply same_vecs_sym.
  Qed.

  Definition bound (l : nat) : nat := match l with O => mMax0 P | _ => hp_mMax P end.
  (** What the construction phase needs of the vertices [X m] it may meet on layer [m]. *)
  Record ready (X : nat -> gset N) (l : nat) (id : N) (s : st) : Prop := MkReady {
    rd_closed : forall m, m <= l -> closed_at (X m) m s;
    rd_new : forall m, id ∉ X m;
    rd_mono : forall m, X (S m) ⊆ X m;
    rd_node : forall m n, m <= l -> n ∈ X m -> exists v, nodes s !! n = Some v /\ m < length (v_conns v);
    rd_nd : forall m n v cs, m <= l -> n ∈ X m -> nodes s !! n = Some v -> v_conns v !! m = Some cs -> NoDup cs;
    rd_dist : dist_all P s;
    rd_id : exists v, nodes s !! id = Some v /\ l < length (v_conns v)
  }.

  (** One layer. *)
  Definition layer_prog (id : N) (vec : fvec) (l : nat) (eps : list elem) : prog st (list elem) :=
    near ← search_layer P t fuel vec eps (hp_efc P) l;
    ns ← select_neighbors P near (hp_m P);
    wal_write (enc_set_conns id l ns);;
    set_conns_unlocked id l ns;;
    link_all P t id vec l (bound l) ns;;
    mret near.
  Lemma construct_eq id vec l eps s s' :
    exec (construct P t fuel id vec l eps) s = Some (s', Val tt) ->
    exists s1 near, exec (layer_prog id vec l eps) s = Some (s1, Val near) /\
      match l with O => s' = s1 | S l' => exec (construct P t fuel id vec l' near) s1 = Some (s', Val tt) end.
  Proof.
    intros Hx. assert (exec (near ← search_layer P t fuel vec eps (hp_efc P) l; ns ← select_neighbors P near (hp_m P);
       wal_write (enc_set_conns id l ns);; set_conns_unlocked id l ns;; link_all P t id vec l (bound l) ns;;
       match l with O => mret tt | S l' => construct P t fuel id vec l' near end) s = Some (s', Val tt)) as H by (by destruct l).
    clear Hx. apply exec_bind_val in H as (s1 & near & H1 & H). apply exec_bind_val in H as (s2 & ns & H2 & H).
    apply exec_bind_val in H as (s3 & [] & H3 & H). apply exec_bind_val in H as (s4 & [] & H4 & H). apply exec_bind_val in H as (s5 & [] & H5 & H).
    exists s5, near. split.
    - unfold layer_prog. rewrite exec_bind, H1, exec_bind, H2, exec_bind, H3, exec_bind, H4, exec_bind, H5. done.
    - destruct l; [|done]. by apply Some_pair_inj in H as [<- _].
  Qed.

  Lemma layer_ok X id vec l eps s s' near :
    exec (layer_prog id vec l eps) s = Some (s', Val near) -> ready X l id s ->
    (forall e, e ∈ eps -> eof P (X l) vec s e) -> NoDup (eids eps) -> eps <> [] -> length eps <= hp_efc P ->
    exists ns vi, (forall e, e ∈ near -> eof P (X l) vec s e) /\ NoDup (eids near) /\ near <> [] /\ length near <= hp_efc P /\
      picks P s near (hp_m P) ns /\ (forall n, n ∈ ns -> n ∈ X l) /\
      same_vecs s s' /\ same_top s s' /\ nodes s !! id = Some vi /\
      (exists vi', nodes s' !! id = Some vi' /\ v_conns vi' = <[l := ns]> (v_conns vi)) /\
      (forall n, n ∉ ns -> n <> id -> nodes s' !! n = nodes s !! n) /\
      (forall n, n ∈ ns -> exists v cs cs' v', nodes s !! n = Some v /\ v_conns v !! l = Some cs /\
         nodes s' !! n = Some v' /\ v_conns v' = <[l := cs']> (v_conns v) /\ v_vec v' = v_vec v /\ relinked P s v vec id (bound l) cs cs').
  Proof.
    intros Hx [Rc Rn Rm Rv Rnd Rd (vi & Hvi & Hvl)] Heps Hnd Hne Hl. unfold layer_prog in Hx.
    apply exec_bind_val in Hx as (s0 & nr & H1 & Hx).
    destruct (layer_searching P t fuel (X l) _ _ _ _ _ _ _ H1 (Rc l (le_n _)) Heps Hnd Hne Hl) as (-> & Hn1 & Hn2 & Hn3 & Hn4).
    apply exec_bind_val in Hx as (s0 & ns & H2 & Hx).
    destruct (select_picks P s Rd _ _ _ _ H2 Hn2) as [-> Hp].
    { apply Forall_forall. intros e He. destruct (Hn1 e He) as (_ & v & Hv & _). by exists v. }
    apply exec_bind_val in Hx as (s2 & [] & Hw & Hx). rewrite enc_set_conns_eq in Hw. cbn [wal_write] in Hw. rewrite exec_act in Hw.
    apply Some_pair_inj in Hw as [<- _].
    apply exec_bind_val in Hx as (s3 & [] & Hset & Hx). unfold set_conns_unlocked in Hset. rewrite exec_act in Hset.
    cbn [nodes wal_append set_wal] in Hset. rewrite Hvi in Hset. unfold vertex_set_conns in Hset.
    destruct (v_conns vi !! l) as [cs0|] eqn:Ec0; [|apply lookup_ge_None in Ec0; lia]. cbn [or_pan mbind out_bind] in Hset.
    apply Some_pair_inj in Hset as [E3 _].
    set (vi' := Vertex (<[l := ns]> (v_conns vi)) (v_vec vi) (v_lock vi)) in *.
    assert (nodes s3 = <[id := vi']> (nodes s)) as N3 by by rewrite <- E3.
    assert (same_top s s3) as T3 by by rewrite <- E3. clear E3.
    assert (same_vecs s s3) as S3.
    { intros i. rewrite N3. destruct (decide (i = id)) as [->|Hi]; [by rewrite lookup_insert, Hvi|by rewrite lookup_insert_ne]. }
    assert (forall n, n ∈ ns -> n ∈ X l) as HnsX.
    { intros n Hn. destruct Hp as (_ & _ & Hin & _). apply Hin in Hn. apply elem_of_list_fmap in Hn as (e & -> & He). by apply Hn1. }
    apply exec_bind_val in Hx as (s4 & [] & Hlink & Hx). apply Some_pair_inj in Hx as [-> Hx]. apply Val_inj in Hx. subst nr.
    assert (forall n, n ∈ ns -> n <> id) as Hnid by (intros n Hn ->; by eapply Rn, HnsX).
    destruct (link_all_ok _ _ _ _ _ _ _ Hlink) as (S4 & T4 & Hout & Hin).
    { apply Hp. }
    { by eapply dist_all_vecs. }
    { rewrite N3, lookup_insert. by eexists. }
    { intros n Hn. destruct (Rv l n (le_n _) (HnsX n Hn)) as (v & Hv & Hlv). destruct (v_conns v !! l) as [cs|] eqn:Ecs; [|apply lookup_ge_None in Ecs; lia].
      exists v, cs. rewrite N3, lookup_insert_ne by (intros E; by apply (Hnid n Hn)). split_and!; [done|done| |].
      - constructor; [|exact (Rnd l n v cs (le_n _) (HnsX n Hn) Hv Ecs)]. intros Hi. apply (Rn l). exact (Rc l (le_n _) n v cs id (HnsX n Hn) Hv Ecs Hi).
      - apply Forall_forall. intros c Hc. destruct (Rv l c (le_n _) (Rc l (le_n _) n v cs c (HnsX n Hn) Hv Ecs Hc)) as (w & Hw & _).
        destruct (same_vecs_some _ _ _ _ S3 Hw) as (w' & Hw' & _). rewrite N3 in Hw'. by exists w'. }
    exists ns, vi. split_and!; try done.
    - by eapply same_vecs_trans.
    - destruct T3, T4. split; congruence.
    - exists vi'. split; [|done]. rewrite Hout by (intros Hi; by apply (Hnid id Hi)). rewrite N3. apply lookup_insert.
    - intros n Hn Hi. rewrite Hout by done. rewrite N3. by rewrite lookup_insert_ne.
    - intros n Hn. destruct (Rv l n (le_n _) (HnsX n Hn)) as (v & Hv & Hlv). destruct (v_conns v !! l) as [cs|] eqn:Ecs; [|apply lookup_ge_None in Ecs; lia].
      destruct (Hin n v cs Hn) as (cs' & v' & Hv' & Ec' & Ev' & Hr'); [|done|].
      { rewrite N3, lookup_insert_ne; [done|]. intros E. by apply (Hnid n Hn). }
      exists v, cs, cs', v'. split_and!; try done. eapply relinked_vecs; [|reflexivity|exact Hr']. by apply same_vecs_sym.
  Qed.

  (** All layers from [l] down. *)
  Record constructed (X : nat -> gset N) (id : N) (vec : fvec) (l : nat) (ns : nat -> list N) (s s' : st) : Prop := MkConstructed {
    co_above : forall m, l < m -> ns m = [];
    co_chosen : forall m, m <= l -> exists near, near <> [] /\ length near <= hp_efc P /\ NoDup (eids near) /\
      (forall e, e ∈ near -> eof P (X m) vec s e) /\ picks P s near (hp_m P) (ns m);
    co_others : forall n v, n <> id -> nodes s !! n = Some v -> exists v', nodes s' !! n = Some v' /\ v_vec v' = v_vec v /\
      length (v_conns v') = length (v_conns v) /\
      forall m cs, v_conns v !! m = Some cs -> exists cs', v_conns v' !! m = Some cs' /\
        (n ∉ ns m -> cs' = cs) /\ (n ∈ ns m -> relinked P s v vec id (bound m) cs cs');
    co_new : forall vi, nodes s !! id = Some vi -> exists vi', nodes s' !! id = Some vi' /\ v_vec vi' = v_vec vi /\
      length (v_conns vi') = length (v_conns vi) /\
      forall m, v_conns vi' !! m = if decide (m <= l) then Some (ns m) else v_conns vi !! m;
    co_vecs : same_vecs s s';
    co_top : same_top s s'
  }.

  Lemma construct_ok X id vec l eps s s' :
    exec (construct P t fuel id vec l eps) s = Some (s', Val tt) -> ready X l id s ->
    (forall e, e ∈ eps -> eof P (X l) vec s e) -> NoDup (eids eps) -> eps <> [] -> length eps <= hp_efc P ->
    exists ns, constructed X id vec l ns s s'.
  Proof.
    revert eps s. induction l as [|l IH]; intros eps s Hx HR Heps Hnd Hne Hl;
      apply construct_eq in Hx as (s1 & near & Hlay & Hx);
      destruct (layer_ok _ _ _ _ _ _ _ _ Hlay HR Heps Hnd Hne Hl) as (ns & vi & Hn1 & Hn2 & Hn3 & Hn4 & Hp & HnsX & Sv & St & Hvi & (vi' & Hvi' & Evi) & Hout & Hin).
    - subst s1. exists (fun m => match m with O => ns | _ => [] end).
      assert (0 < length (v_conns vi)) as Hlv.
      { destruct (rd_id _ _ _ _ HR) as (v & Hv & Hlv). rewrite Hvi in Hv. by injection Hv as <-. }
      split; try done.
      + intros [|m] Hm; [lia|done].
      + intros m Hm. assert (m = 0) as -> by lia. by exists near.
      + intros n v Hni Hv. destruct (decide (n ∈ ns)) as [Hn|Hn].
        * destruct (Hin n Hn) as (v0 & cs & cs' & v' & Hv0 & Hcs & Hv' & Ec & Ev & Hr). rewrite Hv in Hv0. injection Hv0 as <-.
          exists v'. split_and!; [done..|by rewrite Ec, insert_length|]. intros m cm Hm. rewrite Ec. destruct m as [|m].
          -- exists cs'. rewrite Hcs in Hm. injection Hm as <-. split_and!; [|done|done]. apply list_lookup_insert. by apply lookup_lt_Some in Hcs.
          -- exists cm. rewrite list_lookup_insert_ne by done. split_and!; [done..|by intros ?%elem_of_nil].
        * exists v. rewrite Hout by done. split_and!; [done..|]. intros m cm Hm. exists cm. split_and!; [done..|]. destruct m; [done|by intros ?%elem_of_nil].
      + intros v Hv. rewrite Hvi in Hv. injection Hv as <-. exists vi'. rewrite Evi, insert_length. split_and!; [done| |done|].
        { specialize (Sv id). rewrite Hvi, Hvi' in Sv. by injection Sv. }
        intros m. destruct (decide (m <= 0)) as [Hm|Hm].
        * assert (m = 0) as -> by lia. by apply list_lookup_insert.
        * apply list_lookup_insert_ne. lia.
    - assert (S l < length (v_conns vi)) as Hlv.
      { destruct (rd_id _ _ _ _ HR) as (v & Hv & Hlv). rewrite Hvi in Hv. by injection Hv as <-. }
      (* what the next layer finds *)
      assert (forall n v, nodes s !! n = Some v -> exists v', nodes s1 !! n = Some v' /\ v_vec v' = v_vec v /\
        length (v_conns v') = length (v_conns v) /\ forall m, m <> S l -> v_conns v' !! m = v_conns v !! m) as Hfwd.
      { intros n v Hv. destruct (decide (n = id)) as [->|Hni].
        - rewrite Hvi in Hv. injection Hv as <-. exists vi'. rewrite Evi, insert_length. split_and!; [done| |done|].
          + specialize (Sv id). rewrite Hvi, Hvi' in Sv. by injection Sv.
          + intros m Hm. apply list_lookup_insert_ne. lia.
        - destruct (decide (n ∈ ns)) as [Hn|Hn].
          + destruct (Hin n Hn) as (v0 & cs & cs' & v' & Hv0 & Hcs & Hv' & Ec & Ev & Hr). rewrite Hv in Hv0. injection Hv0 as <-.
            exists v'. rewrite Ec, insert_length. split_and!; [done..|]. intros m Hm. apply list_lookup_insert_ne. lia.
          + exists v. rewrite Hout by done. done. }
      assert (forall n v', nodes s1 !! n = Some v' -> exists v, nodes s !! n = Some v /\ v_vec v' = v_vec v /\
        length (v_conns v') = length (v_conns v) /\ forall m, m <> S l -> v_conns v' !! m = v_conns v !! m) as Hbwd.
      { intros n v' Hv'. destruct (same_vecs_some _ _ _ _ (same_vecs_sym _ _ Sv) Hv') as (v & Hv & _). exists v. split; [done|].
        destruct (Hfwd n v Hv) as (v1 & Hv1 & H). rewrite Hv' in Hv1. by injection Hv1 as <-. }
      pose proof HR as [Rc Rn Rm Rv Rnd Rd Ri].
      destruct (IH near s1 Hx) as (ns' & [Ca Cc Co Cn Cv Ct]).
      { split; try done.
        - intros m Hm n v' cs c Hn Hv' Hcs Hc. destruct (Hbwd n v' Hv') as (v & Hv & _ & _ & Ec). rewrite Ec in Hcs by lia.
          eapply (Rc m); eauto.
        - intros m n Hm Hn. destruct (Rv m n ltac:(lia) Hn) as (v & Hv & Hlv'). destruct (Hfwd n v Hv) as (v' & Hv' & _ & El & _). exists v'. split; [done|lia].
        - intros m n v' cs Hm Hn Hv' Hcs. destruct (Hbwd n v' Hv') as (v & Hv & _ & _ & Ec). rewrite Ec in Hcs by lia. eapply (Rnd m n); eauto.
        - by eapply dist_all_vecs.
        - exists vi'. split; [done|]. rewrite Evi, insert_length. lia. }
      { intros e He. destruct (Hn1 e He) as (HX & v & Hv & Hd). split; [by apply Rm|]. destruct (same_vecs_some _ _ _ _ Sv Hv) as (v' & Hv' & E). exists v'. by rewrite E. }
      { done. } { done. } { done. }
      exists (fun m => if decide (m = S l) then ns else ns' m). split.
      + intros m Hm. rewrite decide_False by lia. apply Ca. lia.
      + intros m Hm. destruct (decide (m = S l)) as [->|Hne']; [by exists near|].
        destruct (Cc m ltac:(lia)) as (nr & H1 & H2 & H3 & H4 & H5). exists nr. split_and!; [done..| |].
        * intros e He. destruct (H4 e He) as (HX & v & Hv & Hd). split; [done|]. destruct (same_vecs_some _ _ _ _ (same_vecs_sym _ _ Sv) Hv) as (v' & Hv' & E). exists v'. by rewrite E.
        * eapply picks_vecs; [|exact H5]. by apply same_vecs_sym.
      + intros n v Hni Hv. destruct (Hfwd n v Hv) as (v1 & Hv1 & Ev1 & El1 & Ec1). destruct (Co n v1 Hni Hv1) as (v' & Hv' & Ev' & El' & Hc').
        exists v'. split_and!; [done|congruence|congruence|]. intros m cs Hm. destruct (decide (m = S l)) as [->|Hne'].
        * assert (n ∉ ns' (S l)) as Hno by (rewrite Ca by lia; by intros ?%elem_of_nil).
          destruct (decide (n ∈ ns)) as [Hn|Hn].
          -- destruct (Hin n Hn) as (v0 & cs0 & cs1 & v2 & Hv0 & Hcs & Hv2 & Ec & Ev & Hr). rewrite Hv in Hv0. injection Hv0 as <-.
             rewrite Hm in Hcs. injection Hcs as <-. rewrite Hv1 in Hv2. injection Hv2 as <-.
             destruct (Hc' (S l) cs1) as (cs2 & H1 & H2 & _). { rewrite Ec. apply list_lookup_insert. by apply lookup_lt_Some in Hm. }
             rewrite (H2 Hno) in H1. exists cs1. done.
          -- assert (v1 = v) as -> by (rewrite Hout in Hv1 by done; congruence).
             destruct (Hc' (S l) cs Hm) as (cs2 & H1 & H2 & _). rewrite (H2 Hno) in H1. by exists cs.
        * destruct (Hc' m cs) as (cs' & H1 & H2 & H3); [by rewrite Ec1|]. exists cs'. split_and!; [done..|].
          intros Hn. eapply (relinked_vecs P s1 s v1 v); [by apply same_vecs_sym|done|by apply H3].
      + intros v Hv. rewrite Hvi in Hv. injection Hv as <-. destruct (Cn vi' Hvi') as (v2 & Hv2 & E2 & L2 & C2).
        exists v2. split_and!; [done| | |].
        { rewrite E2. specialize (Sv id). rewrite Hvi, Hvi' in Sv. by injection Sv. }
        { rewrite L2, Evi. apply insert_length. }
        intros m. rewrite C2. destruct (decide (m <= l)) as [Hm|Hm].
        * rewrite decide_True by lia. by rewrite decide_False by lia.
        * destruct (decide (m <= S l)) as [Hm'|Hm'].
          -- assert (m = S l) as -> by lia. rewrite decide_True by done. rewrite Evi. by apply list_lookup_insert.
          -- rewrite Evi. apply list_lookup_insert_ne. lia.
      + by eapply same_vecs_trans.
      + destruct St, Ct. split; congruence.
  Qed.
End link.
