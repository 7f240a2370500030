(** Properties of parallel inserts: C23, C33, C34 (second half). *)
From stdpp Require Import sorting relations.
From Verif Require Import GoBase FloatModel HeapModel ProgModel StateModel WalModel HnswModel CollModel DBModel
  ProofBase CodecProofs FloatProofs HeapProofs WpProofs HnswProofs IndexProofs StepProofs SeqLog IndexHist PropIndex.
From Coq Require Import SpecFloat.
Open Scope nat_scope.

(** ** Small specifications *)
(** One insert call: random level, vector, id. *)
Definition job : Type := nat * fvec * N.
Definition job_id (j : job) : N := snd j.
Definition job_vec (j : job) : fvec := snd (fst j).
Definition job_level (j : job) : nat := fst (fst j).

(** A goroutine that makes insert calls one after the other. *)
Fixpoint inserter (P : hparams) (t fuel : nat) (js : list job) : prog st unit :=
  match js with
  | [] => mret tt
  | (level, vec, id) :: js' => hnsw_insert P t fuel level vec id;; inserter P t fuel js'
  end.
(** Any number of goroutines. *)
Definition inserters (P : hparams) (fuel : nat) (work : list (list job)) : list (prog st unit) :=
  imap (fun t js => inserter P t fuel js) work.

(** Neighbour lists may be one longer than M when inserts overlap. *)
Definition degree_par_ok (P : hparams) (s : st) : Prop :=
  forall id v l cs, nodes s !! id = Some v -> v_conns v !! l = Some cs ->
    length cs <= Nat.max (S (hp_m P)) (if l =? 0 then 2 * hp_mMax P else hp_mMax P).
Record par_ok (P : hparams) (n : nat) (s : st) : Prop := MkParOk {
  pok_refs : refs_ok s;
  pok_degree : degree_par_ok P s;
  pok_dim : forall id v, nodes s !! id = Some v -> length (v_vec v) = n;
  pok_layers : forall id v, nodes s !! id = Some v -> v_conns v <> [];
  pok_once : once s = true -> nodes s <> ∅;
  pok_free : no_mutex_held s
}.
(** Well-formed work for a state. *)
Record work_ok (P : hparams) (n : nat) (work : list (list job)) (s : st) : Prop := MkWorkOk {
  wok_kind : dim_ok (hp_dist P) n;
  wok_dim : forall j, j ∈ mjoin work -> length (job_vec j) = n;
  wok_ids : NoDup (job_id <$> mjoin work);
  wok_new : forall j, j ∈ mjoin work -> nodes s !! job_id j = None
}.

(** ** The logic *)
Section par.
  Context (P : hparams) (okv : fvec -> Prop) (U : gset N).
  Notation Inv := (Inv P true okv U).
  Context (D : gset N).
  Notation parE := (parE P okv U D).
  Notation parGU := (parGU P okv U D).
  Context (Hdist : forall v1 v2, okv v1 -> okv v2 -> exists d, dist P v1 v2 = Val d).
  Context (Hdeg : hp_m P < mMax0 P).

  (** A program that creates vertices [o'] only leaves the others out. *)
  Lemma wp_own {A} (p : prog st A) Q i (o' o : gset N) s :
    o' ⊆ o -> wp parE parGU parB p Q (i, o') s ->
    wp parE parGU parB p (fun x r s' => x = (i, o) /\ Q (i, o') r s' /\
      delrel D s s' /\
      forall id, id ∈ o -> id ∉ o' -> nodes s !! id = None -> nodes s' !! id = None) (i, o) s.
  Proof using.
    clear Hdist Hdeg. intros Hsub.
    enough (forall s0, delrel D s0 s -> (forall id, id ∈ o -> id ∉ o' -> nodes s0 !! id = None -> nodes s !! id = None) ->
      wp parE parGU parB p Q (i, o') s ->
      wp parE parGU parB p (fun x r s' => x = (i, o) /\ Q (i, o') r s' /\
        delrel D s0 s' /\
        forall id, id ∈ o -> id ∉ o' -> nodes s0 !! id = None -> nodes s' !! id = None) (i, o) s) as Hgo.
    { apply Hgo; [by apply delrel_same|done]. }
    intros s0. revert s. induction p as [r|f IH] using prog_ind'; intros s Hd0 Hs0 Hw; cbn [wp] in *; intros s1 He.
    - assert (parE (i, o') s s1) as He'. { destruct He as [[I X O L _] HDr]. split; [|done]. split; try done. intros id Hid. apply O. cbn in *. set_solver. }
      split_and!; [done|by apply Hw|eapply delrel_trans; [done|apply He]|]. intros id Ho Hn H0. eapply rely_own; [apply He|done|]. by apply Hs0.
    - assert (parE (i, o') s s1) as He'. { destruct He as [[I X O L _] HDr]. split; [|done]. split; try done. intros id Hid. apply O. cbn in *. set_solver. }
      specialize (Hw s1 He'). destruct (f s1) as [[s2 p']|] eqn:Ef; [|done].
      destruct Hw as (x' & (-> & HI & [GI GX GO GL GF]) & Hw). exists (i, o). split.
      + split; [done|]. split; [done|]. split; try done. intros id H1 H2. cbn in *. apply Hsub. by apply GO.
      + apply (IH _ _ _ Ef); [eapply delrel_trans; [exact Hd0|]; eapply delrel_trans; [apply He|exact GF]| |done]. intros id Ho Hn H0. destruct (nodes s2 !! id) as [v|] eqn:E2; [|done]. exfalso.
        apply Hn. apply (GO id); [|by eexists]. eapply rely_own; [apply He|done|]. by apply Hs0.
  Qed.

  Lemma wp_inserter fuel js i own s s0 :
    1 <= hp_efc P -> Inv s -> ext s0 s -> free i s -> size U <= fuel -> NoDup (job_id <$> js) ->
    Forall (fun j => okv (job_vec j) /\ job_id j ∈ own /\ job_id j ∈ U /\ nodes s !! job_id j = None) js ->
    wp parE parGU parB (inserter P i fuel js)
      (wr P true okv U (i, own) s0 (fun _ s' => free i s' /\ Forall (fun j => inserted (job_id j) (job_vec j) (job_level j) s') js)) (i, own) s.
  Proof using Hdist Hdeg.
    intros Hefc. revert s s0. induction js as [|[[level vec] id] js IH]; intros s s0 HI H0 Hf Hfuel Hnd Hjs; cbn [inserter].
    - apply (wp_wr_ret P true okv U fst snd parE parGU parB (par_E P okv U D)); [done..|]. intros s' He. split; [|done].
      eapply lockrel_free; [|exact Hf]. eapply rely_lock. apply He.
    - apply Forall_cons in Hjs as [(Hv & Ho & HU & Hn) Hjs]. cbn [job_id job_vec job_level fst snd fmap list_fmap] in *.
      apply NoDup_cons in Hnd as [Hni Hnd].
      pose proof (par_insert P okv U Hdist Hdeg D fuel level vec id i {[id]} s Hefc HI Hf Hv ltac:(set_solver) HU Hn Hfuel) as Hw.
      apply (wp_own _ _ _ _ own) in Hw; [|set_solver].
      apply wp_bind; [apply par_refl|]. eapply wp_mono; [|exact Hw].
      intros x r s1 (-> & (_ & HI1 & Hx & [] & -> & Hf1 & Hins) & _ & Hnone).
      assert (Forall (fun j => okv (job_vec j) /\ job_id j ∈ own /\ job_id j ∈ U /\ nodes s1 !! job_id j = None) js) as Hjs1.
      { apply Forall_forall. intros j Hj. rewrite Forall_forall in Hjs. destruct (Hjs _ Hj) as (? & ? & ? & ?).
        split_and!; try done. apply Hnone; [done| |done]. intros Hin. apply elem_of_singleton in Hin. apply Hni.
        rewrite <- Hin. apply elem_of_list_fmap. by exists j. }
      eapply wp_mono; [|apply (IH s1 s1); try done; apply ext_refl].
      intros x r s2 (-> & HI2 & Hx2 & [] & -> & Hf2 & Hins2).
      split_and!; [done|done|by eapply ext_trans, ext_trans|]. exists tt. split_and!; [done..|].
      constructor; [by eapply inserted_ext|done].
  Qed.
End par.

Definition ids_of (js : list job) : gset N := list_to_set (job_id <$> js).

Lemma par_ok_Inv P n s U :
  par_ok P n s -> (forall id, is_Some (nodes s !! id) -> id ∈ U) -> Inv P true (fun v : fvec => length v = n) U s.
Proof.
  intros [[Hr1 Hr2] Hd Hv Hl Ho Hf] HU. split; try done.
  - intros id v l cs Hn Hc. specialize (Hd id v l cs Hn Hc). unfold degb, slack, max_conn, mMax0. destruct l; cbn in *; lia.
  - intros id v Hn. specialize (Hl id v Hn). destruct (v_conns v); [done|cbn; lia].
Qed.
Lemma Inv_par_ok P n s U :
  Inv P true (fun v : fvec => length v = n) U s -> unlocked s -> par_ok P n s.
Proof.
  intros HI Hun. split; try done.
  - split; [|apply (inv_ep _ _ _ _ _ HI)]. intros id v l cs c Hn Hl Hc. by eapply inv_conn.
  - intros id v l cs Hn Hc. pose proof (inv_deg _ _ _ _ _ HI id v l cs Hn Hc) as H.
    unfold degb, slack, max_conn, mMax0 in H. destruct l; cbn in *; lia.
  - apply (inv_vec _ _ _ _ _ HI).
  - intros id v Hn E. pose proof (inv_lev _ _ _ _ _ HI id v Hn) as H. rewrite E in H. cbn in H. lia.
  - apply (inv_once _ _ _ _ _ HI).
Qed.

(** What every reachable configuration looks like. *)
Lemma inserters_reach P n fuel work s s' ts' :
  0 < hp_efc P -> hp_m P < 2 * hp_mMax P -> par_ok P n s -> work_ok P n work s ->
  size (nodes s) + length (mjoin work) <= fuel ->
  rtc mstep (s, inserters P fuel work) (s', ts') ->
  (forall i r, ts' !! i = Some (Done r) -> r = Val tt) /\
  refs_ok s' /\
  ((exists m, mstep (s', ts') m) \/
   (exists rs, ts' = Done <$> rs) /\ par_ok P n s' /\ ext s s' /\
   (forall j, j ∈ mjoin work -> inserted (job_id j) (job_vec j) (job_level j) s') /\
   (forall id, is_Some (nodes s' !! id) -> is_Some (nodes s !! id) \/ id ∈ job_id <$> mjoin work)).
Proof.
  intros Hefc Hm Hok [Hk Hd Hids Hnew] Hfuel Hr.
  set (okv := fun v : fvec => length v = n).
  set (U := dom (nodes s) ∪ list_to_set (job_id <$> mjoin work)).
  assert (Hdist : forall v1 v2, okv v1 -> okv v2 -> exists d, dist P v1 v2 = Val d) by (intros v1 v2; by apply dist_total).
  assert (size U <= fuel) as HU.
  { unfold U. rewrite size_union_alt. etrans; [|exact Hfuel]. rewrite size_dom.
    assert (size (list_to_set (job_id <$> mjoin work) ∖ dom (nodes s) : gset N) <= size (list_to_set (job_id <$> mjoin work) : gset N)) as Hle
      by (apply subseteq_size; set_solver).
    rewrite size_list_to_set, fmap_length in Hle by done. lia. }
  assert (Inv P true okv U s) as HI.
  { apply par_ok_Inv; [done|]. intros id Hs. apply elem_of_dom in Hs. set_solver. }
  set (xs := imap (fun t js => (t, ids_of js)) work).
  set (Q := fun (i : nat) (x : pl) (r : out unit) (s' : st) => exists js, work !! i = Some js /\ x = (i, ids_of js) /\ ext s s' /\ r = Val tt /\ free i s' /\
    Forall (fun j => inserted (job_id j) (job_vec j) (job_level j) s') js).
  assert (all_wp (parE P okv U ∅) (parGU P okv U ∅) parB (parW P okv U (dom (nodes s))) Q xs (inserters P fuel work) s) as Ha.
  { split_and!.
    - unfold xs, inserters. by rewrite !imap_length.
    - unfold parW. split_and!; [done|..].
      + intros i x Hx. unfold xs in Hx. rewrite list_lookup_imap in Hx. destruct (work !! i); [|done]. by injection Hx as <-.
      + intros i j x y Hne Hx Hy. unfold xs in Hx, Hy. rewrite list_lookup_imap in Hx, Hy.
        destruct (work !! i) as [js1|] eqn:E1; [|done]. destruct (work !! j) as [js2|] eqn:E2; [|done].
        injection Hx as <-. injection Hy as <-. cbn [snd]. intros k H1 H2. unfold ids_of in *.
        apply elem_of_list_to_set in H1, H2. rewrite fmap_mjoin in Hids.
        eapply (NoDup_mjoin_disj _ i j); [exact Hids|done|by rewrite list_lookup_fmap, E1|by rewrite list_lookup_fmap, E2|done|done].
      + intros k v t Hkv Hl. rewrite (pok_free _ _ _ Hok _ _ Hkv) in Hl. done.
      + intros id Hid. left. by apply elem_of_dom.
    - intros i x p Hx Hp. unfold xs in Hx. unfold inserters in Hp. rewrite list_lookup_imap in Hx. rewrite list_lookup_imap in Hp.
      destruct (work !! i) as [js|] eqn:E1; [|done]. cbn in Hx, Hp. injection Hx as <-. injection Hp as <-.
      assert (forall j, j ∈ js -> j ∈ mjoin work) as Hin.
      { intros j Hj. apply elem_of_list_join. exists js. split; [done|]. by eapply elem_of_list_lookup_2. }
      eapply wp_mono; [|apply (wp_inserter P okv U ∅ Hdist Hm fuel js i (ids_of js) s s Hefc HI (ext_refl s))].
      + intros x r s1 (-> & HI1 & Hx & [] & -> & Hf & Hins). exists js. by split_and!.
      + intros k v Hkv. by rewrite (pok_free _ _ _ Hok _ _ Hkv).
      + done.
      + rewrite fmap_mjoin in Hids. eapply NoDup_mjoin_at; [exact Hids|]. by rewrite list_lookup_fmap, E1.
      + apply Forall_forall. intros j Hj. specialize (Hin j Hj). split_and!; [by apply Hd| | |by apply Hnew].
        * unfold ids_of. apply elem_of_list_to_set, elem_of_list_fmap. by exists j.
        * unfold U. apply elem_of_union_r, elem_of_list_to_set, elem_of_list_fmap. by exists j. }
  destruct (par_reach P okv U Hdist Hm ∅ (dom (nodes s)) Q xs _ _ _ _ Ha Hr) as (xs' & Ha' & Hend).
  { intros i x r s1 (js & _ & -> & _ & _ & Hf & _). done. }
  destruct Ha' as (Hlen & HW & Hall). pose proof HW as (HI' & Hid' & _ & Hlk' & Hdom').
  split_and!.
  - intros i r Hi. destruct (lookup_lt_is_Some_2 xs' i) as [x Hx]; [rewrite Hlen; by eapply lookup_lt_Some|].
    destruct (Hall i x _ Hx Hi s' (par_refl P okv U ∅ x s')) as (? & _ & _ & _ & -> & _). done.
  - split; [|apply (inv_ep _ _ _ _ _ HI')]. intros id v l cs c Hn Hl Hc. by eapply inv_conn.
  - destruct Hend as [[rs ->]|Hm']; [|by left]. right.
    assert (forall i x, xs' !! i = Some x -> Q i x (Val tt) s') as HQ.
    { intros i x Hx. assert (is_Some (rs !! i)) as [r Hr']. { apply lookup_lt_is_Some_2. rewrite fmap_length in Hlen. rewrite <- Hlen. by eapply lookup_lt_Some. }
      assert ((Done <$> rs : list (prog st unit)) !! i = Some (Done r)) as Hd' by (by rewrite list_lookup_fmap, Hr').
      pose proof (Hall i x _ Hx Hd' s' (par_refl P okv U ∅ x s')) as HQ. pose proof HQ as (? & _ & _ & _ & -> & _). done. }
    assert (length xs' = length work) as Hlw.
    { pose proof (rtc_mstep_length _ _ Hr) as Hl. cbn [snd] in Hl. unfold inserters in Hl. rewrite imap_length in Hl. by rewrite Hlen, Hl. }
    split_and!.
    + by exists rs.
    + apply (Inv_par_ok P n s' U); [done|]. apply unlocked_free. intros t k v Hkv Hl.
      pose proof (Hlk' k v t Hkv Hl) as Hlt. destruct (lookup_lt_is_Some_2 xs' t Hlt) as [x Hx].
      destruct (HQ _ _ Hx) as (js & _ & _ & _ & _ & Hf & _). by apply (Hf k v).
    + destruct (decide (work = [])) as [->|Hne].
      * cbn in Hr. inversion Hr as [|? m ? Hst]; subst; [apply ext_refl|]. inversion Hst; subst. done.
      * destruct (lookup_lt_is_Some_2 xs' 0) as [x Hx]; [destruct work; [done|cbn in Hlw; lia]|].
        by destruct (HQ _ _ Hx) as (js & _ & _ & Hx' & _).
    + intros j Hj. apply elem_of_list_join in Hj as (js & Hj & Hjs). apply elem_of_list_lookup in Hjs as [i Hi].
      destruct (lookup_lt_is_Some_2 xs' i) as [x Hx]; [rewrite Hlw; by eapply lookup_lt_Some|].
      destruct (HQ _ _ Hx) as (js' & Hi' & _ & _ & _ & _ & Hall'). rewrite Hi in Hi'. injection Hi' as <-.
      rewrite Forall_forall in Hall'. by apply Hall'.
    + intros id Hs. destruct (Hdom' id Hs) as [Hb|(i & x & Hx & Hin)]; [left; by apply elem_of_dom|right].
      destruct (HQ _ _ Hx) as (js & Hi & -> & _). cbn [snd] in Hin. unfold ids_of in Hin. apply elem_of_list_to_set in Hin.
      apply elem_of_list_fmap in Hin as (j & -> & Hj). apply elem_of_list_fmap. exists j. split; [done|].
      apply elem_of_list_join. exists js. split; [done|]. by eapply elem_of_list_lookup_2.
Qed.


(** ** C23 *)
Theorem C23_parallel_inserts_never_panic_or_block :
  forall P n fuel work s,
    params_ok P -> hp_m P < 2 * hp_mMax P -> par_ok P n s -> work_ok P n work s ->
    size (nodes s) + length (mjoin work) <= fuel ->
    (* no schedule runs for ever *)
    Acc (flip mstep) (s, inserters P fuel work) /\
    forall s' ts', rtc mstep (s, inserters P fuel work) (s', ts') ->
      (* at any moment: finished goroutines have not panicked, references are fine *)
      (forall i r, ts' !! i = Some (Done r) -> r = Val tt) /\ refs_ok s' /\
      (* and either some goroutine can go on, or all have finished, in a good state *)
      ((exists m, mstep (s', ts') m) \/ ((exists rs, ts' = Done <$> rs) /\ par_ok P n s')).
Proof.
  intros P n fuel work s HP Hm Hok Hw Hf. split; [apply mstep_acc|]. intros s' ts' Hr.
  destruct (inserters_reach P n fuel work s s' ts' (pok_efc P HP) Hm Hok Hw Hf Hr) as (H1 & H2 & H3).
  split_and!; [done..|]. destruct H3 as [?|(? & ? & _)]; [by left|by right].
Qed.
Print Assumptions C23_parallel_inserts_never_panic_or_block.

(** ** C33 *)
(** [v] is a vertex created by the insert call [j]; the first vertex of an
    index has one layer whatever level was drawn. *)
Definition made_by (j : job) (v : vertex) : Prop :=
  v_vec v = job_vec j /\ (length (v_conns v) = 1 \/ length (v_conns v) = S (job_level j)).

Definition once_stays (s s' : st) : Prop := once s = true -> once s' = true.
Lemma inserter_once_stays P t fuel js : steps once_stays (inserter P t fuel js).
Proof.
  induction js as [|[[level vec] id] js IH]; cbn [inserter]; [done|]. apply steps_bind; [|intros _; apply IH].
  apply steps_insert; [split; intros; intro; done|by intros ? ? ? ?|by intros ? ?|]. intros a b c H1 H2 H. by apply H2, H1.
Qed.

Theorem C33_one_first_vertex_none_lost :
  forall P n fuel work,
    params_ok P -> hp_m P < 2 * hp_mMax P -> work_ok P n work empty_st -> length (mjoin work) <= fuel ->
    (* the first step of any goroutine makes its first vertex the only one and the entry point *)
    (forall s1 ts1, mstep (empty_st, inserters P fuel work) (s1, ts1) ->
      exists i j js, work !! i = Some (j :: js) /\ ts1 = <[i := inserter P i fuel js]> (inserters P fuel work) /\
        nodes s1 = {[ job_id j := Vertex [[]] (job_vec j) None ]} /\ ep s1 = job_id j /\ maxl s1 = 0 /\ once s1 = true /\
        (* and from then on the first-vertex branch is closed *)
        forall s' ts', rtc mstep (s1, ts1) (s', ts') -> once s' = true) /\
    (* at the end exactly the inserted ids are there, each with its own vector *)
    forall s' rs, rtc mstep (empty_st, inserters P fuel work) (s', Done <$> rs) ->
      (forall j, j ∈ mjoin work -> exists v, nodes s' !! job_id j = Some v /\ made_by j v) /\
      (forall id v, nodes s' !! id = Some v -> exists j, j ∈ mjoin work /\ job_id j = id).
Proof.
  intros P n fuel work HP Hm Hw Hf. split.
  - intros s1 ts1 Hm1. inversion Hm1 as [s0 ts0 i f s2 p' Hi Hfs]; subst.
    unfold inserters in Hi. rewrite list_lookup_imap in Hi. destruct (work !! i) as [js|] eqn:Ei; [|done]. cbn in Hi.
    destruct js as [|[[level vec] id] js]; [done|]. exists i, (level, vec, id), js. cbn [inserter] in Hi.
    apply (inj Some) in Hi. unfold hnsw_insert, once_insert in Hi. rewrite enc_set_entry_eq, enc_add_vertex_eq in Hi.
    cbn in Hi. injection Hi as <-. cbn in Hfs. injection Hfs as <- <-.
    split_and!; try done. intros s' ts' Hr.
    refine (proj1 (steps_rtc once_stays (fun _ H => H) (fun a b c H1 H2 H => H2 (H1 H)) _ _ Hr _) eq_refl).
    apply Forall_lookup. intros k p Hk. cbn [snd] in Hk. apply list_lookup_insert_Some in Hk as [(-> & <- & _)|[_ Hk]]; [apply inserter_once_stays|].
    unfold inserters in Hk. rewrite list_lookup_imap in Hk. destruct (work !! k); [|done]. injection Hk as <-. apply inserter_once_stays.
  - intros s' rs Hr.
    assert (par_ok P n empty_st) as Hok by (split; [by split|done..]).
    destruct (inserters_reach P n fuel work empty_st s' _ (pok_efc P HP) Hm Hok Hw ltac:(change (nodes empty_st) with (∅ : gmap N vertex); rewrite map_size_empty; lia) Hr) as (_ & _ & [[m Hs]|(_ & _ & _ & H1 & H2)]).
    { exfalso. inversion Hs as [s0 ts0 i f s2 p' Hi Hfs]; subst. rewrite list_lookup_fmap in Hi. by destruct (rs !! i). }
    split.
    + intros j Hj. destruct (H1 j Hj) as (v & Hv & Hvec & Hl). exists v. by split.
    + intros id v Hv. destruct (H2 id) as [[w Hw']|Hin]; [by eexists|done|].
      apply elem_of_list_fmap in Hin as (j & -> & Hj). by exists j.
Qed.
Print Assumptions C33_one_first_vertex_none_lost.

(** ** C34: overlapping inserts *)
Lemma run_sched_rtc {S A} (m m' : machine S A) sch : run_sched m sch = Some m' -> rtc mstep m m'.
Proof.
  revert m. induction sch as [|i sch IH]; intros m; cbn [run_sched]; [intros [= ->]; apply rtc_refl|].
  destruct (sched_step m i) as [m1|] eqn:E; [|done]. intros Hr. eapply rtc_l; [|by apply IH].
  unfold sched_step in E. destruct m as [s ts]. cbn [fst snd] in E. destruct (ts !! i) as [[r|f]|] eqn:Ei; [done| |done].
  destruct (f s) as [[s' p']|] eqn:Ef; [|done]. injection E as <-. by econstructor.
Qed.

(** One vertex on layer 0, then two overlapping inserts with levels 2 and 1:
    both have seen top layer 0, the one with level 1 writes last. *)
Definition c34_params : hparams := HParams 2 2 4 4 false Euclidean.
Definition c34_work : list (list job) :=
  [[(0, [0]%N, 0%N)]; [(2, [1065353216]%N, 1%N)]; [(1, [1073741824]%N, 2%N)]].
Definition c34_sched : list nat := [0] ++ replicate 10 1 ++ replicate 15 2 ++ [1; 2].
Lemma c34_work_ok : work_ok c34_params 1 c34_work empty_st.
Proof.
  split; [done| |apply (bool_decide_eq_true _); by vm_compute|done].
  intros j Hj. cbn in Hj. repeat (apply elem_of_cons in Hj as [->|Hj]; [done|]). by apply elem_of_nil in Hj.
Qed.
Theorem C34_entry_point_on_top_parallel_refuted :
  exists P n fuel work s' rs v w, params_ok P /\ hp_m P < 2 * hp_mMax P /\ work_ok P n work empty_st /\
    length (mjoin work) <= fuel /\ rtc mstep (empty_st, inserters P fuel work) (s', Done <$> rs) /\
    nodes s' !! ep s' = Some v /\ nodes s' !! 1%N = Some w /\ length (v_conns v) < length (v_conns w).
Proof.
  exists c34_params, 1, 3, c34_work.
  assert ((run_sched (empty_st, inserters c34_params 3 c34_work) c34_sched ≫= fun '(s, ts) =>
    match ts, nodes s !! ep s, nodes s !! 1%N with
    | [Done (Val _); Done (Val _); Done (Val _)], Some v, Some w => Some (length (v_conns v) <? length (v_conns w))
    | _, _, _ => None
    end) = Some true) as H by by vm_compute.
  revert H. destruct (run_sched (empty_st, inserters c34_params 3 c34_work) c34_sched) as [[s' ts']|] eqn:Er; [|by intros]. cbn [mbind option_bind].
  apply run_sched_rtc in Er. intros H. destruct ts' as [|[[[]| |]|] [|[[[]| |]|] [|[[[]| |]|] [|]]]]; try done.
  destruct (nodes s' !! ep s') as [v|] eqn:Ev; [|done]. destruct (nodes s' !! 1%N) as [w|] eqn:Ew; [|done].
  injection H as H. apply Nat.ltb_lt in H.
  exists s', [Val tt; Val tt; Val tt], v, w. cbn [fmap list_fmap].
  split; [split; cbn; lia|]. split; [cbn; lia|]. split; [apply c34_work_ok|]. split; [cbn; lia|].
  split; [exact Er|]. split; [exact Ev|]. split; [exact Ew|exact H].
Qed.
Print Assumptions C34_entry_point_on_top_parallel_refuted.

Lemma index_ok_par_ok P n s : index_ok P n s -> par_ok P n s.
Proof.
  intros [H1 H2 H3 H4 H5 H6]. split; try done. intros id v l cs Hn Hl. specialize (H2 id v l cs Hn Hl). destruct (l =? 0); lia.
Qed.
(** A parallel run meets the hypotheses of C23 and C33, also on an index that
    is not empty. *)
Example C23_case : params_ok ex_params /\ hp_m ex_params < 2 * hp_mMax ex_params /\ par_ok ex_params 1 ex_st /\
  work_ok ex_params 1 [[(0, [1065353216]%N, 20%N); (1, [0]%N, 21%N)]; [(2, [1120403456]%N, 22%N)]; []] ex_st.
Proof.
  split_and!; [apply ex_params_ok|cbn; lia| |].
  - apply index_ok_par_ok, ex_st_ok.
  - split; [done| |apply (bool_decide_eq_true _); by vm_compute|].
    all: intros j Hj; cbn in Hj; repeat (apply elem_of_cons in Hj as [->|Hj]; [by vm_compute|]); by apply elem_of_nil in Hj.
Qed.
