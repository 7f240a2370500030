(** What the calls and returns of an atomic run say about its effects. *)
From stdpp Require Import relations.
From Verif Require Import GoBase FloatModel HeapModel ProgModel StateModel WalModel HnswModel StoreModel CollModel CallModel LinModel
  ProofBase WpProofs StepProofs HistProofs LinProofs.
Open Scope nat_scope.

(** The calls and the replies of a trace, in order. *)
Definition called (vs : list vis) : list call := omap (fun v => match v with VCall _ c => Some c | VRet _ _ => None end) vs.
Definition returned (vs : list vis) : list reply := omap (fun v => match v with VRet _ r => Some r | VCall _ _ => None end) vs.
(** Goroutine [i] does not return in [vs]. *)
Definition no_return (i : nat) (vs : list vis) : Prop := forall r, VRet i r ∉ vs.

Definition is_size (c : call) : bool := match c with CSize => true | _ => false end.
(** What remains of the calls of a run when GetSize is left out. *)
Definition events (es : list (call * reply)) : list event :=
  uncurry EvCall <$> filter (fun e => is_size e.1 = false) es.
Lemma events_app es es' : events (es ++ es') = events es ++ events es'.
Proof. unfold events. by rewrite filter_app, fmap_app. Qed.
Lemma events_in es c r : is_size c = false -> (c, r) ∈ es -> EvCall c r ∈ events es.
Proof. intros Hc He. unfold events. apply elem_of_list_fmap. exists (c, r). split; [done|]. by apply elem_of_list_filter. Qed.
Lemma events_from es e : e ∈ events es -> exists c r, e = EvCall c r /\ (c, r) ∈ es.
Proof. unfold events. intros ([c r] & -> & [_ He]%elem_of_list_filter)%elem_of_list_fmap. eauto. Qed.

Section trace.
  Context (C : cparams) (bad : call -> Prop).

  Lemma at_run_mid m vs1 x vs2 es m' :
    at_run C bad m (vs1 ++ x :: vs2) es m' ->
    exists es1 m1 m2 es2, es = es1 ++ es2 /\ at_run C bad m vs1 es1 m1 /\ at_step C bad m1 [x] [] m2 /\ at_run C bad m2 vs2 es2 m'.
  Proof.
    remember (vs1 ++ x :: vs2) as vs eqn:E. intros Hr. revert vs1 vs2 E.
    induction Hr as [m|m v1 es1 m1 v2 es2 m2 Hr IH Hs]; intros vs1 vs2 E; [by destruct vs1|].
    assert (Hv : v2 = [] \/ exists y, v2 = [y] /\ es2 = []) by (inversion Hs; subst; eauto).
    destruct Hv as [->|(y & -> & ->)].
    - rewrite app_nil_r in E. subst v1. destruct (IH vs1 vs2 eq_refl) as (ea & ma & mb & eb & -> & H1 & H2 & H3).
      exists ea, ma, mb, (eb ++ es2). split; [by rewrite app_assoc|]. split_and!; [done|done|].
      rewrite <- (app_nil_r vs2). by eapply AtSnoc.
    - destruct (decide (vs2 = [])) as [->|Hne].
      + apply app_inj_tail in E as [-> ->]. exists es1, m1, m2, []. split_and!; [done|done|done|constructor].
      + destruct (exists_last Hne) as (vs2' & z & ->).
        replace (vs1 ++ x :: vs2' ++ [z]) with ((vs1 ++ x :: vs2') ++ [z]) in E by by rewrite <- app_assoc.
        apply app_inj_tail in E as [-> ->]. destruct (IH vs1 vs2' eq_refl) as (ea & ma & mb & eb & -> & H1 & H2 & H3).
        exists ea, ma, mb, eb. split; [by rewrite app_nil_r|]. split_and!; [done|done|]. rewrite <- (app_nil_r eb). by eapply AtSnoc.
  Qed.

  (** A goroutine that waits gets its reply from an effect. *)
  Lemma at_run_answer m vs es m' i c :
    at_run C bad m vs es m' -> m.2 !! i = Some (APend c) -> no_return i vs ->
    m'.2 !! i = Some (APend c) \/ exists r, m'.2 !! i = Some (ADone r) /\ (c, r) ∈ es.
  Proof.
    intros Hr Hi Hn. induction Hr as [m|m v1 es1 m1 v2 es2 m2 Hr IH Hs]; [by left|].
    destruct IH as [IH|(r & IH & Hin)]; [done|intros r Hv; apply (Hn r); set_solver| |].
    - inversion Hs as [s ts j c' Hj|s ts j c' s' r Hj He|s ts j r Hj]; subst; cbn [snd] in *.
      + destruct (decide (j = i)) as [->|Hne]; [congruence|]. left. by rewrite list_lookup_insert_ne.
      + destruct (decide (j = i)) as [->|Hne]; [|left; by rewrite list_lookup_insert_ne].
        rewrite IH in Hj. injection Hj as <-. right. exists r. split; [|set_solver]. apply list_lookup_insert. by eapply lookup_lt_Some.
      + destruct (decide (j = i)) as [->|Hne]; [congruence|]. left. by rewrite list_lookup_insert_ne.
    - right. exists r. split; [|set_solver].
      inversion Hs as [s ts j c' Hj|s ts j c' s' r' Hj He|s ts j r' Hj]; subst; cbn [snd] in *.
      + destruct (decide (j = i)) as [->|Hne]; [congruence|]. by rewrite list_lookup_insert_ne.
      + destruct (decide (j = i)) as [->|Hne]; [congruence|]. by rewrite list_lookup_insert_ne.
      + destruct (decide (j = i)) as [->|Hne]; [|by rewrite list_lookup_insert_ne]. exfalso. apply (Hn r'). set_solver.
  Qed.
  Lemma at_run_call_return m vs1 i c vs2 r vs3 es m' :
    at_run C bad m (vs1 ++ VCall i c :: vs2 ++ VRet i r :: vs3) es m' -> no_return i vs2 ->
    exists es1 es2 es3 m1 m2, es = es1 ++ es2 ++ es3 /\ (c, r) ∈ es2 /\ at_run C bad m vs1 es1 m1 /\ at_run C bad m2 vs3 es3 m'.
  Proof.
    intros Hr Hn. destruct (at_run_mid _ _ _ _ _ _ Hr) as (e1 & m1 & m2 & e2 & -> & H1 & H2 & H3).
    destruct (at_run_mid _ _ _ _ _ _ H3) as (e3 & m3 & m4 & e4 & -> & H4 & H5 & H6).
    exists e1, e3, e4, m1, m4. split; [done|].
    inversion H2 as [s ts j c' Hj| |]; subst. inversion H5 as [| |s2 ts2 j r' Hj']; subst.
    destruct (at_run_answer _ _ _ _ i c H4) as [H|(r' & H & Hin)]; cbn [snd] in *.
    - apply list_lookup_insert. by eapply lookup_lt_Some.
    - done.
    - congruence.
    - split; [|done]. assert (r' = r) as -> by congruence. done.
  Qed.

  (** Every effect is that of a call made; every reply is that of an effect. *)
  Definition pending (ts : list aclient) : list call := omap (fun a => match a with APend c => Some c | _ => None end) ts.
  Definition answered (ts : list aclient) : list reply := omap (fun a => match a with ADone r => Some r | _ => None end) ts.
  Lemma omap_insert {A B} (f : A -> option B) l i x y : l !! i = Some x ->
    option_list (f x) ++ omap f (<[i := y]> l) ≡ₚ option_list (f y) ++ omap f l.
  Proof.
    revert i. induction l as [|z l IH]; intros i Hi; [done|]. destruct i as [|i]; cbn in *.
    - injection Hi as ->. destruct (f x), (f y); cbn; try done. constructor.
    - destruct (f z) as [b|]; [|by apply IH]. rewrite <- !Permutation_middle. f_equiv. by apply IH.
  Qed.
  Lemma at_run_perm s n vs es m :
    at_run C bad (s, replicate n AIdle) vs es m ->
    called vs ≡ₚ es.*1 ++ pending m.2 /\ es.*2 ≡ₚ returned vs ++ answered m.2.
  Proof.
    remember (s, replicate n AIdle) as m0 eqn:E. induction 1 as [m|m v1 es1 m1 v2 es2 m2 Hr IH Hs]; subst.
    - cbn. split; induction n; done.
    - destruct (IH eq_refl) as [H1 H2]. clear IH. unfold called, returned in *. rewrite !omap_app, !fmap_app, H1, H2.
      inversion Hs as [s1 ts j c Hj|s1 ts j c s' r Hj He|s1 ts j r Hj]; subst; cbn [snd omap list_omap fmap list_fmap fst]; rewrite ?app_nil_r.
      + pose proof (omap_insert (fun a => match a with APend c => Some c | _ => None end) _ _ _ (APend c) Hj) as P1.
        pose proof (omap_insert (fun a => match a with ADone r => Some r | _ => None end) _ _ _ (APend c) Hj) as P2.
        cbn in P1, P2. unfold pending, answered. rewrite P1, P2. split; [|done]. rewrite <- app_assoc. f_equiv. by rewrite (comm (++) _ [c]).
      + pose proof (omap_insert (fun a => match a with APend c => Some c | _ => None end) _ _ _ (ADone r) Hj) as P1.
        pose proof (omap_insert (fun a => match a with ADone r => Some r | _ => None end) _ _ _ (ADone r) Hj) as P2.
        cbn in P1, P2. unfold pending, answered. rewrite P2, <- P1. rewrite <- !app_assoc. split; [done|]. f_equiv. by rewrite (comm (++) _ [r]).
      + pose proof (omap_insert (fun a => match a with APend c => Some c | _ => None end) _ _ _ AIdle Hj) as P1.
        pose proof (omap_insert (fun a => match a with ADone r => Some r | _ => None end) _ _ _ AIdle Hj) as P2.
        cbn in P1, P2. unfold pending, answered. rewrite P1, <- P2. split; [done|]. by rewrite <- app_assoc.
  Qed.
  Lemma at_run_called s n vs es m c r : at_run C bad (s, replicate n AIdle) vs es m -> (c, r) ∈ es -> c ∈ called vs.
  Proof.
    intros Hr He. destruct (at_run_perm _ _ _ _ _ Hr) as [H _]. rewrite H. apply elem_of_app. left. apply elem_of_list_fmap. by exists (c, r).
  Qed.
  Lemma called_in vs c : c ∈ called vs <-> exists i, VCall i c ∈ vs.
  Proof.
    unfold called. rewrite elem_of_list_omap. split.
    - intros (v & Hv & E). destruct v; [|done]. injection E as ->. by eexists.
    - intros [i Hi]. by eexists.
  Qed.
End trace.

(** Without GetSize the effects make a history. *)
Lemma at_run_hist C m vs es m' : at_run C (eq CSize) m vs es m' -> hist C m.1 (events es) m'.1.
Proof.
  induction 1 as [m|m v1 es1 m1 v2 es2 m2 Hr IH Hs]; [constructor|]. rewrite events_app.
  inversion Hs as [s1 ts j c Hj|s1 ts j c s' r Hj He|s1 ts j r Hj]; subst; cbn [fst] in *; try (unfold events at 2; cbn; by rewrite app_nil_r).
  destruct (is_size c) eqn:Ec.
  - destruct c; try done. unfold events at 2. rewrite filter_cons_False by done. cbn. rewrite app_nil_r.
    inversion He as [c s2 r2 Hc|io id ob vb r2 Hbad _ _|n0 _ _]; subst; [|done].
    inversion Hc as [| | | | | | | |s3 r3 Hx| | ]; subst. unfold get_size in Hx. rewrite exec_act in Hx. by injection Hx as <- <-.
  - unfold events at 2. rewrite filter_cons_True by done. cbn. econstructor; [exact IH|]. apply StepCall.
    by inversion He as [c2 s2 r2 Hc|io id ob vb r2 Hbad _ _|n0 _ _]; subst.
Qed.
