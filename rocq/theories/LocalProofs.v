(** Where a layer search stops: no neighbour of the nearest vertex it returns
    is nearer. *)
From Verif Require Import GoBase FloatModel HeapModel ProgModel StateModel WalModel HnswModel CollModel
  ProofBase CodecProofs FloatProofs HeapProofs WpProofs HnswProofs IndexProofs StepProofs SeqLog IndexHist CallProofs HistProofs
  SimProofs WalProofs StoreView RestoreProofs ExactProofs.
Open Scope nat_scope.

Section climb.
  Context (P : hparams) (t : nat) (X : gset N) (q : fvec) (ef l : nat) (s : st).
  Context (Hef : 1 <= ef) (Hnum : numbers P X q s) (Hcl : closed_at X l s).

  (** The neighbours of [i] have been looked at. *)
  Definition expanded (vis : gset N) (i : N) : Prop :=
    forall v cs c, nodes s !! i = Some v -> v_conns v !! l = Some cs -> c ∈ cs -> c ∈ vis.
  (** Something returned is not further than the vertex [i]. *)
  Definition beaten (near : list elem) (i : N) : Prop :=
    forall v d, nodes s !! i = Some v -> dist P (v_vec v) q = Val d -> exists b, b ∈ near /\ fltb d (e_dist b) = false.
  (** The loop's local variables, while the vertex [cur] is being expanded. *)
  Record climbing (cur : option N) (x : slstate) : Prop := MkClimbing {
    cl_near : forall e, e ∈ sl_near x -> egood P X q s e;
    cl_cands : forall e, e ∈ sl_cands x -> egood P X q s e;
    cl_hnear : heap_ok max_less (sl_near x);
    cl_hcands : heap_ok min_less (sl_cands x);
    cl_ne : sl_near x <> [];
    cl_X : sl_visited x ⊆ X;
    cl_vis : forall i, i ∈ sl_visited x -> beaten (sl_near x) i;
    cl_exp : forall b, b ∈ sl_near x -> b ∈ sl_cands x \/ expanded (sl_visited x) (e_id b) \/ cur = Some (e_id b)
  }.

  Lemma good_enum es : (forall e, e ∈ es -> egood P X q s e) -> Forall enum es.
  Proof. intros H. apply Forall_forall. intros e He. by apply H. Qed.
  Lemma expanded_mono vis vis' i : vis ⊆ vis' -> expanded vis i -> expanded vis' i.
  Proof. intros Hs H v cs c Hv Hc Hin. by apply Hs, (H v cs). Qed.

  Lemma peek_in (f : elem) near : heap_peek near = Val f -> f ∈ near.
  Proof. unfold heap_peek. destruct (last near) as [f'|] eqn:El; [|done]. intros <-%Val_inj. by apply last_Some_elem_of in El. Qed.

  Lemma consider_climbing cur nid d v x x' :
    climbing cur x -> nid ∈ X -> nodes s !! nid = Some v -> dist P (v_vec v) q = Val d -> 
    consider ef nid d (SL ({[nid]} ∪ sl_visited x) (sl_cands x) (sl_near x)) = Val x' ->
    climbing cur x' /\ sl_visited x' = {[nid]} ∪ sl_visited x.
  Proof.
    intros [Hn Hc Hhn Hhc Hne HvX Hv Hx] HX Hnid Hd. unfold consider. cbn [sl_near sl_cands sl_visited].
    assert (egood P X q s (Elem nid d)) as Hg by (split_and!; [done|by eapply Hnum|by exists v]).
    destruct (heap_peek (sl_near x)) as [f| |] eqn:Ef; cbn [mbind out_bind]; [|done..]. apply peek_in in Ef.
    assert (HvX' : {[nid]} ∪ sl_visited x ⊆ X) by (intros i [->%elem_of_singleton|Hi]%elem_of_union; [done|by apply HvX]).
    assert (Hexp : forall b, expanded (sl_visited x) (e_id b) -> expanded ({[nid]} ∪ sl_visited x) (e_id b)).
    { intros b. apply expanded_mono. set_solver. }
    destruct (fltb d (e_dist f) || _) eqn:Eo.
    2:{ intros [= <-]. split; [|done]. apply orb_false_elim in Eo as [Eo _]. split; cbn [sl_near sl_cands sl_visited]; try done.
        - intros i [->%elem_of_singleton|Hi]%elem_of_union; [|by apply Hv]. intros v' d' Hv' Hd'. rewrite Hnid in Hv'. injection Hv' as <-.
          rewrite Hd in Hd'. injection Hd' as <-. by exists f.
        - intros b Hb. destruct (Hx b Hb) as [?|[?|?]]; auto. }
    pose proof (heap_push_perm max_less (sl_near x) (Elem nid d)) as Pn. pose proof (heap_push_perm min_less (sl_cands x) (Elem nid d)) as Pc.
    assert (Hc' : forall e, e ∈ heap_push min_less (sl_cands x) (Elem nid d) -> egood P X q s e).
    { intros e He. rewrite Pc in He. apply elem_of_cons in He as [->|He]; [done|by apply Hc]. }
    assert (Hn' : forall e, e ∈ heap_push max_less (sl_near x) (Elem nid d) -> egood P X q s e).
    { intros e He. rewrite Pn in He. apply elem_of_cons in He as [->|He]; [done|by apply Hn]. }
    assert (Hhn' : heap_ok max_less (heap_push max_less (sl_near x) (Elem nid d))).
    { apply (heap_push_ok max_less enum max_less_irr max_less_asym max_less_ntrans); [by apply good_enum|by apply Hg|done]. }
    assert (Hhc' : heap_ok min_less (heap_push min_less (sl_cands x) (Elem nid d))).
    { apply (heap_push_ok min_less enum min_less_irr min_less_asym min_less_ntrans); [by apply good_enum|by apply Hg|done]. }
    assert (Hv' : forall i, i ∈ {[nid]} ∪ sl_visited x -> beaten (heap_push max_less (sl_near x) (Elem nid d)) i).
    { intros i [->%elem_of_singleton|Hi]%elem_of_union v' d' Hv1 Hd1.
      - exists (Elem nid d). split; [rewrite Pn; by left|]. rewrite Hnid in Hv1. injection Hv1 as <-. rewrite Hd in Hd1. injection Hd1 as <-. apply fltb_irrefl.
      - destruct (Hv i Hi v' d' Hv1 Hd1) as (b & Hb & Hle). exists b. split; [rewrite Pn; by right|done]. }
    assert (Hx' : forall b, b ∈ heap_push max_less (sl_near x) (Elem nid d) ->
      b ∈ heap_push min_less (sl_cands x) (Elem nid d) \/ expanded ({[nid]} ∪ sl_visited x) (e_id b) \/ cur = Some (e_id b)).
    { intros b Hb. rewrite Pn in Hb. rewrite Pc. apply elem_of_cons in Hb as [->|Hb]; [left; by left|].
      destruct (Hx b Hb) as [?|[?|?]]; [left; by right|auto..]. }
    destruct (ef <? _) eqn:El.
    2:{ intros [= <-]. split; [|done]. split; cbn [sl_near sl_cands sl_visited]; try done. intros E. by rewrite E in Pn; apply Permutation_nil_cons in Pn. }
    apply Nat.ltb_lt in El.
    destruct (heap_pop max_less _) as [[e near']| |] eqn:Ep; cbn [mbind out_bind]; [|done..]. intros [= <-]. split; [|done].
    pose proof (heap_pop_perm _ _ _ _ Ep) as Pp.
    destruct (heap_pop_ok max_less enum max_less_irr max_less_asym max_less_ntrans _ _ _ (good_enum _ Hn') Hhn' Ep) as (Hhp & _ & Hmax).
    assert (Hsub : forall b, b ∈ near' -> b ∈ heap_push max_less (sl_near x) (Elem nid d)) by (intros b Hb; rewrite Pp; by right).
    assert (near' <> []) as Hne'. { intros ->. rewrite (Permutation_length Pp) in El. cbn in El. lia. }
    split; cbn [sl_near sl_cands sl_visited]; auto.
    intros i Hi v' d' Hv1 Hd1. destruct (Hv' i Hi v' d' Hv1 Hd1) as (b & Hb & Hle). rewrite Pp in Hb.
    apply elem_of_cons in Hb as [->|Hb]; [|by exists b].
    destruct near' as [|b0 near']; [done|]. exists b0. split; [by left|].
    assert (Hb0 : b0 ∈ heap_push max_less (sl_near x) (Elem nid d)) by (apply Hsub; by left).
    assert (He0 : e ∈ heap_push max_less (sl_near x) (Elem nid d)) by (rewrite Pp; by left).
    specialize (Hmax b0 Hb0). unfold HeapProofs.le, max_less in Hmax.
    apply (fltb_ntrans _ (e_dist e)); [|by apply Hn'|by apply Hn'|done|done]. by eapply Hnum; [apply HvX'|..].
  Qed.

  Lemma visit_climbing cur cs x s' x' :
    exec (visit_conns P q ef cs x) s = Some (s', Val x') -> (forall c, c ∈ cs -> c ∈ X) ->
    climbing cur x -> climbing cur x' /\ sl_visited x ⊆ sl_visited x' /\ forall c, c ∈ cs -> c ∈ sl_visited x'.
  Proof.
    revert x. induction cs as [|c cs IH]; intros x Hx Hcs Hw; cbn [visit_conns] in Hx.
    { apply Some_pair_inj in Hx as [_ Hx]. apply Val_inj in Hx. subst x'. split_and!; [done|done|by intros c ?%elem_of_nil]. }
    assert (forall c', c' ∈ cs -> c' ∈ X) as Hcs' by (intros; apply Hcs; by right).
    case_bool_decide as Hv.
    { destruct (IH x Hx Hcs' Hw) as (H1 & H2 & H3). split_and!; [done|done|]. intros c' [->|Hc]%elem_of_cons; [by apply H2|by apply H3]. }
    apply exec_bind_val in Hx as (s1 & f & Hf1 & Hx). rewrite exec_lift in Hf1. apply Some_pair_inj in Hf1 as [<- _].
    apply exec_bind_val in Hx as (s2 & nb & Hnb & Hx). unfold read_vertex in Hnb. rewrite exec_act in Hnb.
    apply Some_pair_inj in Hnb as [<- Hnb]. destruct (nodes s !! c) as [v|] eqn:Ec; [|done]. apply Val_inj in Hnb. subst nb.
    apply exec_bind_val in Hx as (s3 & d & Hd & Hx). rewrite exec_lift in Hd. apply Some_pair_inj in Hd as [<- Hd].
    apply exec_bind_val in Hx as (s4 & x1 & Hx1 & Hx). rewrite exec_lift in Hx1. apply Some_pair_inj in Hx1 as [<- Hx1].
    destruct (consider_climbing cur c d v x x1) as [Hw1 Hv1]; [done|apply Hcs; by left|done..|].
    destruct (IH x1 Hx Hcs' Hw1) as (H1 & H2 & H3). rewrite Hv1 in H2. split_and!; [done|set_solver|].
    intros c' [->|Hc]%elem_of_cons; [set_solver|by apply H3].
  Qed.

  (** The nearest of the result, [b], is not further than its neighbours. *)
  Definition summit (near : list elem) : Prop :=
    forall b v cs c w d, b ∈ near -> (forall e, e ∈ near -> fltb (e_dist e) (e_dist b) = false) ->
      nodes s !! e_id b = Some v -> v_conns v !! l = Some cs -> c ∈ cs -> nodes s !! c = Some w -> dist P (v_vec w) q = Val d ->
      fltb d (e_dist b) = false.
  Lemma summit_of x : climbing None x ->
    (forall b, b ∈ sl_near x -> (forall e, e ∈ sl_near x -> fltb (e_dist e) (e_dist b) = false) -> expanded (sl_visited x) (e_id b)) ->
    summit (sl_near x).
  Proof.
    intros [Hn Hc Hhn Hhc Hne HvX Hv Hx] He b v cs c w d Hb Hmin Hbv Hcs Hin Hw Hd.
    pose proof (He b Hb Hmin v cs c Hbv Hcs Hin) as Hvis. destruct (Hv c Hvis w d Hw Hd) as (b' & Hb' & Hle).
    apply (fltb_ntrans _ (e_dist b')); [|by apply Hn|by apply Hn|done|by apply Hmin]. by eapply Hnum; [apply HvX|..].
  Qed.

  Lemma loop_climbing n x s' x' :
    exec (search_loop P t n q ef l x) s = Some (s', Val x') -> climbing None x -> summit (sl_near x').
  Proof.
    revert x. induction n as [|n IH]; intros x Hx Hw; cbn [search_loop] in Hx.
    all: assert (Hnil : sl_cands x = [] -> summit (sl_near x))
      by (intros E; apply (summit_of x Hw); intros b Hb _; destruct (cl_exp _ _ Hw b Hb) as [H|[H|H]]; [rewrite E in H; by apply elem_of_nil in H|done|done]).
    { destruct (sl_cands x); [|done]. apply Some_pair_inj in Hx as [_ Hx]. apply Val_inj in Hx. subst x'. by apply Hnil. }
    destruct (sl_cands x) as [|c0 cs0] eqn:Ec.
    { apply Some_pair_inj in Hx as [_ Hx]. apply Val_inj in Hx. subst x'. by apply Hnil. }
    rewrite <- Ec in Hx. clear c0 cs0 Ec Hnil.
    apply exec_bind_val in Hx as (s1 & [c cands] & Hp & Hx). rewrite exec_lift in Hp. apply Some_pair_inj in Hp as [<- Hp].
    apply exec_bind_val in Hx as (s1 & f & Hpk & Hx). rewrite exec_lift in Hpk. apply Some_pair_inj in Hpk as [<- Hpk]. apply peek_in in Hpk.
    pose proof (heap_pop_perm _ _ _ _ Hp) as Hperm.
    destruct (heap_pop_ok min_less enum min_less_irr min_less_asym min_less_ntrans _ _ _ (good_enum _ (cl_cands _ _ Hw)) (cl_hcands _ _ Hw) Hp) as (Hhp & _ & Hmin).
    assert (Hw0 : climbing (Some (e_id c)) (SL (sl_visited x) cands (sl_near x))).
    { destruct Hw as [Hn Hc Hhn Hhc Hne HvX Hv Hx']. split; cbn [sl_visited sl_near sl_cands]; try done.
      - intros e He. apply Hc. rewrite Hperm. by right.
      - intros b Hb. destruct (Hx' b Hb) as [H|[H|H]]; [|by auto|done]. rewrite Hperm in H. apply elem_of_cons in H as [->|H]; auto. }
    destruct (fltb (e_dist f) (e_dist c)) eqn:Efc.
    { apply Some_pair_inj in Hx as [_ Hx]. apply Val_inj in Hx. subst x'. cbn [sl_near]. apply (summit_of x Hw).
      intros b Hb Hbm. destruct (cl_exp _ _ Hw b Hb) as [H|[H|H]]; [exfalso|done|done].
      specialize (Hmin b H). specialize (Hbm f Hpk). unfold HeapProofs.le, min_less in Hmin.
      assert (num (e_dist f) /\ num (e_dist b) /\ num (e_dist c)) as (N1 & N2 & N3).
      { split_and!; [by apply (cl_near _ _ Hw)|by apply (cl_near _ _ Hw)|apply (cl_cands _ _ Hw); rewrite Hperm; by left]. }
      pose proof (fltb_ntrans _ _ _ N1 N2 N3 Hbm Hmin). congruence. }
    apply exec_bind_val in Hx as (s1 & conns & Hr & Hx). pose proof (pure_read_conns P t _ _ _ _ _ Hr) as ->.
    unfold read_conns in Hr. rewrite exec_act_lock in Hr. destruct (nodes s !! e_id c) as [v|] eqn:En; [|done].
    destruct (v_lock v); [done|]. destruct (v_conns v !! l) as [cs|] eqn:El; [|done]. case_decide; [|done].
    apply Some_pair_inj in Hr as [_ Hr]. apply Val_inj in Hr. subst conns.
    apply exec_bind_val in Hx as (s1 & x1 & Hvs & Hx). pose proof (pure_visit_conns P _ _ _ _ _ _ _ Hvs) as ->.
    destruct (visit_climbing (Some (e_id c)) _ _ _ _ Hvs) as (H1 & H2 & H3); [|done|].
    { intros c' Hc'. eapply Hcl; [|done..]. apply (cl_cands _ _ Hw). rewrite Hperm. by left. }
    apply (IH _ Hx). destruct H1 as [Hn Hc Hhn Hhc Hne HvX Hv Hx']. split; try done.
    intros b Hb. destruct (Hx' b Hb) as [?|[?|[= E]]]; [by left|by auto|]. right. left. intros v' cs' c' Hv' Hcs' Hin.
    rewrite <- E, En in Hv'. injection Hv' as <-. rewrite El in Hcs'. injection Hcs' as <-. by apply H3.
  Qed.

  Lemma layer_climbing fuel eps s' near :
    exec (search_layer P t fuel q eps ef l) s = Some (s', Val near) -> (forall e, e ∈ eps -> egood P X q s e) -> eps <> [] -> summit near.
  Proof.
    intros Hx Heps Hne. unfold search_layer in Hx.
    apply exec_bind_val in Hx as (s1 & cands & Hc & Hx). rewrite exec_lift in Hc. apply Some_pair_inj in Hc as [<- Hc].
    apply exec_bind_val in Hx as (s1 & near0 & Hn & Hx). rewrite exec_lift in Hn. apply Some_pair_inj in Hn as [<- Hn].
    apply exec_bind_val in Hx as (s1 & x & Hlp & Hx). apply Some_pair_inj in Hx as [_ Hx]. apply Val_inj in Hx. subst near.
    unfold new_min_heap_deep in Hc. unfold new_max_heap_deep in Hn. case_decide; [|done]. apply Val_inj in Hc, Hn.
    assert (cands ≡ₚ eps) as Pc by (subst cands; apply heap_init_perm).
    assert (near0 ≡ₚ eps) as Pn by (subst near0; apply heap_init_perm).
    apply (loop_climbing _ _ _ _ Hlp). pose proof (good_enum _ Heps) as Hen. split; cbn [sl_visited sl_near sl_cands].
    - intros e. rewrite Pn. apply Heps.
    - intros e. rewrite Pc. apply Heps.
    - subst near0. by apply (heap_init_ok max_less enum max_less_irr max_less_asym max_less_ntrans).
    - subst cands. by apply (heap_init_ok min_less enum min_less_irr min_less_asym min_less_ntrans).
    - intros ->. by apply Permutation_nil in Pn.
    - intros i Hi%elem_of_list_to_set. apply elem_of_list_fmap in Hi as (e & -> & He). by apply Heps.
    - intros i Hi v d Hv Hd. apply elem_of_list_to_set, elem_of_list_fmap in Hi as (e & -> & He). exists e. split; [by rewrite Pn|].
      destruct (Heps e He) as (_ & _ & v' & Hv' & Hd'). rewrite Hv in Hv'. injection Hv' as <-. rewrite Hd in Hd'. injection Hd' as ->. apply fltb_irrefl.
    - intros b Hb. left. rewrite Pc. by rewrite Pn in Hb.
  Qed.
End climb.
