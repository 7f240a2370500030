(** The objects a caller passes to a batch, and their ids (C108). *)
From stdpp Require Import relations.
From Verif Require Import GoBase FloatModel HeapModel ProgModel StateModel WalModel HnswModel StoreModel CollModel CallModel PtrModel
  ProofBase WpProofs StepProofs StoreProofs CallProofs HistProofs HistRun StoreView PropStore PropColl PtrProofs.
Open Scope nat_scope.

(** ** From pointers to values *)
Lemma vals_fst m ps : (vals m ps).*1 = m <$> ps.*1.
Proof. unfold vals. rewrite <- !list_fmap_compose. done. Qed.
Lemma vals_snd m ps : (vals m ps).*2 = ps.*2.
Proof. unfold vals. rewrite <- !list_fmap_compose. done. Qed.
Lemma vals_zip m ps : zip (m <$> ps.*1) ps.*2 = vals m ps.
Proof. induction ps as [|[p l] ps IH]; [done|]. cbn. f_equal. exact IH. Qed.
Lemma chunk_fmap {A B} (f : A -> B) w i l : chunk w i (f <$> l) = f <$> chunk w i l.
Proof. unfold chunk. by rewrite fmap_length, fmap_take, fmap_drop. Qed.
Lemma chunk_vals m w i ps : chunk w i (vals m ps) = vals m (chunk w i ps).
Proof. apply chunk_fmap. Qed.

Definition to_values {A} (m : cmem) (ps : list nat) (r : out A) : out (list object) :=
  match r with Val _ => Val (m <$> ps) | Err e => Err e | Pan z => Pan z end.
(** Embedding sets vectors that are missing, and nothing else. *)
Definition embedded (ps : list nat) (m m' : cmem) : Prop :=
  (forall q, q ∉ ps -> m' q = m q) /\
  forall q, o_id (m' q) = o_id (m q) /\ o_props (m' q) = o_props (m q) /\ (needs_vec (m q) = false -> o_vec (m' q) = o_vec (m q)).
Lemma embedded_refl ps m : embedded ps m m. Proof. done. Qed.

Lemma assign_values (c : nat -> bool) ps er m m' r : NoDup ps -> (forall q, q ∈ ps -> c q = needs_vec (m q)) ->
  assign_ptr (List.filter c ps) er m = (m', r) ->
  assign_vecs (m <$> ps) er = to_values m' ps r /\ embedded ps m m'.
Proof.
  revert er m. induction ps as [|p ps IH]; intros er m Hnd Hc Ha.
  { cbn in *. injection Ha as <- <-. done. }
  apply NoDup_cons in Hnd as [Hp Hnd]. cbn [List.filter] in Ha. pose proof (Hc p ltac:(by left)) as Hcp. rewrite Hcp in Ha.
  cbn [fmap list_fmap assign_vecs]. destruct (needs_vec (m p)) eqn:En.
  - cbn [assign_ptr] in Ha. destruct er as [|v er]; [injection Ha as <- <-; by cbn|].
    set (m1 := mset p _ m) in Ha.
    assert (E1 : forall q, q <> p -> m1 q = m q) by (intros q Hq; unfold m1, mset; by destruct (Nat.eqb_spec q p)).
    assert (E2 : m1 p = Object (o_id (m p)) (o_props (m p)) (Some v)) by (unfold m1, mset; by rewrite Nat.eqb_refl).
    clearbody m1. destruct (IH er m1 Hnd) as [H1 [H2 H3]]; [|done|].
    { intros q Hq. rewrite E1; [apply Hc; by right|]. by intros ->. }
    assert (E3 : m1 <$> ps = m <$> ps).
    { apply list_fmap_ext. intros i q Hi. apply E1. intros ->. apply Hp. by eapply elem_of_list_lookup_2. }
    rewrite <- E3. change (list_fmap nat object m1 ps) with (m1 <$> ps). rewrite H1. split; [|split].
    + destruct r; cbn; try done. by rewrite (H2 p Hp), E2.
    + intros q Hq. apply not_elem_of_cons in Hq as [Hq1 Hq2]. rewrite H2 by done. by apply E1.
    + intros q. destruct (H3 q) as (A1 & A2 & A3). destruct (decide (q = p)) as [->|Hq]; [|by rewrite (E1 q Hq) in *].
      rewrite E2 in *. cbn in *. split_and!; [done|done|]. congruence.
  - destruct (IH er m Hnd) as [H1 [H2 H3]]; [|done|].
    { intros q Hq. apply Hc. by right. }
    change (list_fmap nat object m ps) with (m <$> ps). rewrite H1. split; [|split; [|done]].
    + destruct r; cbn; try done. by rewrite (H2 p Hp).
    + intros q Hq. apply not_elem_of_cons in Hq as [Hq1 Hq2]. by apply H2.
Qed.
Lemma filter_fmap_bool (f : object -> bool) (m : cmem) ps : List.filter f (m <$> ps) = m <$> List.filter (fun p => f (m p)) ps.
Proof. induction ps as [|p ps IH]; [done|]. cbn. destruct (f (m p)); cbn; [f_equal|]; exact IH. Qed.
Lemma prepare_values C s ps m m' r : NoDup ps -> prepare_ptr C s ps m = (m', r) ->
  batch_prepare C s (m <$> ps) = to_values m' ps r /\ embedded ps m m'.
Proof.
  intros Hnd. unfold prepare_ptr, batch_prepare. destruct (closed s); [by intros [= <- <-]|].
  destruct (validate_objects C 0 (m <$> ps)) as [[]|e|z]; [|by intros [= <- <-]..]. cbn [mbind out_bind].
  unfold embed_ptr, embed_objects. destruct (cp_embed C) as [E|].
  - rewrite filter_fmap_bool. destruct (E _) as [er|]; [|by intros [= <- <-]]. intros Ha. by eapply assign_values in Ha.
  - intros [= <- <-]. by destruct (existsb _ _).
Qed.

Lemma join_disjoint {A} (ls : list (list A)) i j a b q : NoDup (mjoin ls) -> ls !! i = Some a -> ls !! j = Some b -> q ∈ a -> q ∈ b -> i = j.
Proof.
  revert i j. induction ls as [|l ls IH]; intros i j Hnd Hi Hj Ha Hb; [done|]. cbn in Hnd. apply NoDup_app in Hnd as (_ & Hd & Hnd).
  assert (Hin : forall k c, ls !! k = Some c -> q ∈ c -> q ∈ mjoin ls).
  { intros k c Hk Hc. apply elem_of_list_join. exists c. split; [done|by eapply elem_of_list_lookup_2]. }
  destruct i as [|i], j as [|j]; try done; cbn in Hi, Hj.
  - injection Hi as <-. by destruct (Hd q Ha (Hin j b Hj Hb)).
  - injection Hj as <-. by destruct (Hd q Hb (Hin i a Hi Ha)).
  - f_equal. by apply IH.
Qed.

Lemma join_nodup {A} (ls : list (list A)) i a : NoDup (mjoin ls) -> ls !! i = Some a -> NoDup a.
Proof.
  revert i. induction ls as [|l ls IH]; intros i Hnd Hi; [done|]. cbn in Hnd. apply NoDup_app in Hnd as (H1 & _ & H2).
  destruct i as [|i]; cbn in Hi; [by injection Hi as <-|by eapply IH].
Qed.

Lemma sim_start C two ps m s : NoDup ps.*1 -> 0 < cp_workers C -> (two = false -> chan s = []) ->
  exists Ks, sim ps.*1 m (PSt (if two then set_chan (vals m ps) s else s) m (if two then ps else []))
    (threads_ptr C two ps) ((if two then batch2_threads else batch_threads) C (vals m ps)) Ks.
Proof.
  intros Hnd Hw Hch. destruct two.
  - exists (replicate (cp_workers C) ∅). split; cbn [p_st p_mem p_chan]; try done.
    + unfold threads_ptr, batch2_threads. by rewrite !fmap_length, seq_length, replicate_length.
    + intros i K P Q [-> Hi]%lookup_replicate HP HQ. unfold threads_ptr in HP. unfold batch2_threads in HQ. rewrite list_lookup_fmap, lookup_seq_lt in HP by done. rewrite list_lookup_fmap, lookup_seq_lt in HQ by done.
      injection HP as <-. injection HQ as <-. unfold vals at 1. rewrite fmap_length.
      eapply sm_mono; [|apply sm_worker2]. intros K' hl' a b (-> & H1 & H2 & H3 & H4). split_and!; [done|done|]. intros q. rewrite H3. set_solver.
    + intros i j K K' q [-> _]%lookup_replicate _ Hq _. set_solver.
    + split; [done|]. intros i K q [-> _]%lookup_replicate Hq. set_solver.
    + split; [|done]. intros i K q [-> _]%lookup_replicate Hq. set_solver.
  - set (cs := (fun i => chunk (cp_workers C) i ps.*1) <$> seq 0 (cp_workers C)).
    assert (Hcs : mjoin cs = ps.*1) by (by apply chunk_join).
    exists ((list_to_set : list nat -> gset nat) <$> cs). unfold cs.
    assert (HK : forall i (K : gset nat), ((list_to_set : list nat -> gset nat) <$> cs) !! i = Some K -> i < cp_workers C /\ K = list_to_set (chunk (cp_workers C) i ps.*1)).
    { intros i K HK. rewrite list_lookup_fmap in HK. unfold cs in HK. rewrite list_lookup_fmap in HK. destruct (seq 0 _ !! i) as [x|] eqn:E; [|done].
      apply lookup_seq in E as [-> Hlt]. cbn in HK. injection HK as <-. by split. }
    split; cbn [p_st p_mem p_chan]; try done.
    + unfold threads_ptr, batch_threads. by rewrite !fmap_length.
    + intros i K P Q [Hi ->]%HK HP HQ. unfold threads_ptr in HP. unfold batch_threads in HQ. rewrite list_lookup_fmap, lookup_seq_lt in HP by done. rewrite list_lookup_fmap, lookup_seq_lt in HQ by done.
      injection HP as <-. injection HQ as <-. rewrite chunk_vals, chunk_fmap.
      assert (Hc : NoDup (chunk (cp_workers C) i ps).*1).
      { rewrite <- chunk_fmap. rewrite <- Hcs in Hnd. apply (join_nodup cs i); [done|]. unfold cs. by rewrite list_lookup_fmap, lookup_seq_lt. }
      eapply sm_mono; [|apply sm_worker; [exact Hc|]; intros q Hq; by apply elem_of_list_to_set].
      intros K' hl' a b (-> & -> & -> & _). split_and!; [done|done|]. intros q. by rewrite elem_of_list_to_set.
    + intros i j K K' q HK1 HK2 Hq1 Hq2. pose proof HK1 as [Hi ->]%HK. pose proof HK2 as [Hj ->]%HK. apply elem_of_list_to_set in Hq1, Hq2.
      apply (join_disjoint cs i j (chunk (cp_workers C) i ps.*1) (chunk (cp_workers C) j ps.*1) q); [by rewrite Hcs| | |done|done]; unfold cs; rewrite list_lookup_fmap, lookup_seq_lt by done; done.
    + by rewrite Hch.
    + split; [constructor|]. intros i K q _ _. by intros ?%elem_of_nil.
    + split; [|by intros q ?%elem_of_nil]. intros i K q [Hi ->]%HK Hq. apply elem_of_list_to_set in Hq. rewrite <- Hcs. apply elem_of_list_join.
      eexists. split; [exact Hq|]. apply elem_of_list_fmap. exists i. split; [done|]. apply elem_of_seq. lia.
Qed.

Lemma wait_values {A B} (f : out A -> out B) rs r : (forall x e, f x = Err e <-> x = Err e) -> group_wait rs r -> group_wait (f <$> rs) r.
Proof.
  intros Hf. destruct r as [[]|e|z]; cbn.
  - intros H e (x & E & Hx)%elem_of_list_fmap. symmetry in E. apply Hf in E as ->. by apply (H e).
  - intros H. apply elem_of_list_fmap. exists (Err e). split; [|done]. symmetry. by apply Hf.
  - done.
Qed.
Lemma in_values_err m x e : in_values m x = Err e <-> x = Err e.
Proof. destruct x; cbn; naive_solver. Qed.

(** ** C108 The caller's objects carry the ids they are stored under *)
Definition batch_call (two io : bool) (ol : list (object * nat)) : call := if two then CBatch2 io ol else CBatch io ol.

Lemma ptr_values C two io ps s m s' m' r rs :
  NoDup ps.*1 -> 0 < cp_workers C -> chan s = [] -> batch_ptr C two io ps s m s' m' r rs ->
  call_run C s (batch_call two io (vals m ps)) s' (RBatch r (in_values m' <$> rs)) /\
  (forall q, q ∉ ps.*1 -> m' q = m q) /\
  (forall q, o_props (m' q) = o_props (m q) /\ (needs_vec (m q) = false -> o_vec (m' q) = o_vec (m q))) /\
  (rs <> [] -> (forall x, x ∈ rs -> exists l, x = Val l) -> NoDup (mjoin (out_list <$> rs)) /\ forall q, q ∈ mjoin (out_list <$> rs) -> q ∈ ps.*1).
Proof.
  intros Hnd Hw Hch Hb.
  assert (Hrun : forall m1 x rs, prepare_ptr C s ps.*1 m = (m1, Val tt) ->
    rtc mstep (PSt (if two then set_chan (vals m1 ps) s else s) m1 (if two then ps else []), threads_ptr C two ps) (x, Done <$> rs) ->
    batch_prepare C s (vals m ps).*1 = Val (m1 <$> ps.*1) /\
    rtc mstep (if two then set_chan (vals m1 ps) s else s, (if two then batch2_threads else batch_threads) C (vals m1 ps)) (p_st x, Done <$> (in_values (p_mem x) <$> rs)) /\
    (forall q, q ∉ ps.*1 -> p_mem x q = m q) /\
    (forall q, o_props (p_mem x q) = o_props (m q) /\ (needs_vec (m q) = false -> o_vec (p_mem x q) = o_vec (m q))) /\
    ((forall x, x ∈ rs -> exists l, x = Val l) -> NoDup (mjoin (out_list <$> rs)) /\ forall q, q ∈ mjoin (out_list <$> rs) -> q ∈ ps.*1)).
  { intros m1 x rs1 Hp Hr. destruct (prepare_values _ _ _ _ _ _ Hnd Hp) as [H1 [H2 H3]]. rewrite vals_fst. split; [exact H1|].
    destruct (sim_start C two ps m1 s Hnd Hw ltac:(done)) as [Ks Hs]. destruct (sim_run _ _ _ _ _ _ _ _ Hr Hs) as (qs & Ks' & Hq & Hsim).
    pose proof (sim_end _ _ _ _ _ _ Hsim) as ->. cbn [p_st] in Hq. split; [by destruct two|].
    destruct (sim_keep _ _ _ _ _ _ Hsim) as [K1 K2]. split_and!.
    - intros q Hq'. by rewrite K2, H2.
    - intros q. destruct (K1 q) as [A1 A2]. destruct (H3 q) as (_ & B2 & B3). rewrite A1, A2. split; [done|]. done.
    - intros Hv. assert (Hat : forall i l, rs1 !! i = Some (Val l) -> exists K, Ks' !! i = Some K /\ NoDup l /\ forall q, q ∈ l <-> q ∈ K).
      { intros i l Hi. destruct (sim_len _ _ _ _ _ _ Hsim) as [L1 L2]. rewrite !fmap_length in L1. rewrite !fmap_length in L2. pose proof (lookup_lt_Some _ _ _ Hi) as Hlt.
        destruct (lookup_lt_is_Some_2 Ks' i ltac:(lia)) as [K HK]. exists K. split; [done|].
        assert (Ht : (Done <$> rs1 : list (prog pst (list nat))) !! i = Some (Done (Val l))) by (by rewrite list_lookup_fmap, Hi).
        assert (Hq2 : (Done <$> (in_values (p_mem x) <$> rs1) : list (prog st (list object))) !! i = Some (Done (Val (p_mem x <$> l)))) by (by rewrite !list_lookup_fmap, Hi).
        destruct (sim_at _ _ _ _ _ _ Hsim i K _ _ HK Ht Hq2) as (b & _ & _ & ? & ?). done. }
      split.
      + assert (Hdis : forall i j l l' q, rs1 !! i = Some (Val l) -> rs1 !! j = Some (Val l') -> q ∈ l -> q ∈ l' -> i = j).
        { intros i j l l' q Hi Hj Hl Hl'. destruct (Hat i l Hi) as (K & HK & _ & E). destruct (Hat j l' Hj) as (K' & HK' & _ & E').
          apply (sim_disj _ _ _ _ _ _ Hsim i j K K' q HK HK'); [by apply E|by apply E']. }
        assert (Hnd' : forall i l, rs1 !! i = Some (Val l) -> NoDup l) by (intros i l Hi; by destruct (Hat i l Hi) as (K & _ & ? & _)).
        clear -Hv Hdis Hnd'. induction rs1 as [|r rs1 IH]; [constructor|]. cbn. destruct (Hv r ltac:(by left)) as [l ->]. cbn.
        apply NoDup_app. split_and!.
        * by apply (Hnd' 0).
        * intros q Hq (l' & Hq' & Hin)%elem_of_list_join. apply elem_of_list_fmap in Hin as (r' & -> & Hin).
          destruct (Hv r' ltac:(by right)) as [l2 ->]. apply elem_of_list_lookup in Hin as [j Hj]. by specialize (Hdis 0 (S j) l l2 q eq_refl Hj Hq Hq').
        * apply IH; [intros x Hx; apply Hv; by right| |].
          -- intros i j a b q Hi Hj Ha Hb'. specialize (Hdis (S i) (S j) a b q Hi Hj Ha Hb'). lia.
          -- intros i a Hi. by apply (Hnd' (S i)).
      + intros q (l' & Hq' & Hin)%elem_of_list_join. apply elem_of_list_fmap in Hin as (r' & -> & Hin). destruct (Hv r' Hin) as [l ->].
        apply elem_of_list_lookup in Hin as [i Hi]. destruct (Hat i l Hi) as (K & HK & _ & E). destruct (sim_in _ _ _ _ _ _ Hsim) as [I1 _]. apply (I1 i K q HK). by apply E. }
  inversion Hb as [m1 r1 Hp Hr|m1 s1 x rs1 s2 r1 Hp Es Hr Hg Hf|m1 s1 x rs1 e Hp Es Hr Hg]; subst; clear Hb.
  - destruct (prepare_values _ _ _ _ _ _ Hnd Hp) as [H1 [H2 H3]]. split_and!; [|done| |done].
    + cbn [fmap list_fmap]. assert (Hpr : batch_prepare C s' (vals m ps).*1 = to_values m' ps.*1 r) by (by rewrite vals_fst).
      assert (Hne : forall os, to_values m' ps.*1 r <> Val os) by (destruct r as [[]| |]; done).
      assert (E : RBatch r [] = RBatch (_ ← to_values m' ps.*1 r; Val tt) []) by (destruct r as [[]| |]; done).
      rewrite E. destruct two; [by eapply RunBatch2Refused|by eapply RunBatchRefused].
    + intros q. destruct (H3 q) as (_ & ? & ?). done.
  - destruct (Hrun m1 x rs Hp Hr) as (H1 & H2 & H3 & H4 & H5). split_and!; [|done|done|by intros _].
    apply (wait_values (in_values (p_mem x))) in Hg; [|apply in_values_err].
    destruct two; [eapply RunBatch2|eapply RunBatch]; (exact H1 || (rewrite vals_snd, vals_zip; by eapply BatchOk)).
  - destruct (Hrun m1 x rs Hp Hr) as (H1 & H2 & H3 & H4 & H5). split_and!; [|done|done|by intros _].
    apply (wait_values (in_values (p_mem x))) in Hg; [|apply in_values_err].
    destruct two; [eapply RunBatch2|eapply RunBatch]; (exact H1 || (rewrite vals_snd, vals_zip; by eapply BatchErr)).
Qed.

(** Pointers that are all different behave as the values they point to, for
    every schedule of the workers and every outcome. *)
Theorem C108_pointers_are_values_partial : forall C h s two io ps m s' m' r rs,
  hist C empty_st h s -> (N.of_nat (hist_inserts h) < 2 ^ 64)%N -> NoDup ps.*1 -> 0 < cp_workers C ->
  batch_ptr C two io ps s m s' m' r rs ->
  call_run C s (batch_call two io ((fun pl => (m (fst pl), snd pl)) <$> ps)) s' (RBatch r (in_values m' <$> rs)) /\
  (forall q, q ∉ ps.*1 -> m' q = m q) /\
  (forall q, o_props (m' q) = o_props (m q) /\ (o_vec (m q) <> None -> o_vec (m' q) = o_vec (m q))).
Proof.
  intros C h s two io ps m s' m' r rs Hh Hb64 Hnd Hw Hb. destruct (hist0 _ _ _ Hh Hb64) as [HI _].
  destruct (ptr_values _ _ _ _ _ _ _ _ _ _ Hnd Hw (si_chan _ HI) Hb) as (H1 & H2 & H3 & _). split_and!; [exact H1|exact H2|].
  intros q. destruct (H3 q) as [A1 A2]. split; [done|]. intros Hn. apply A2. unfold needs_vec. by destruct (o_vec (m q)).
Qed.
Print Assumptions C108_pointers_are_values_partial.

(** A batch of different pointers that succeeds, none of whose workers
    panicked: every object of the caller now carries an id of its own, not
    given to any object before; Get of that id returns just that object; its
    properties, and its vector if it had one, are what they were; no other
    object of the caller has changed.  Missing for the full claim: batches
    that contain a pointer twice, or in which a worker panics (C35). *)
Theorem C108_caller_sees_ids_partial : forall C h s two io ps m s' m' rs,
  hist C empty_st h s -> (N.of_nat (hist_inserts h + length ps) < 2 ^ 64)%N -> NoDup ps.*1 -> 0 < cp_workers C ->
  batch_ptr C two io ps s m s' m' (Val tt) rs -> (forall z, Pan z ∉ rs) ->
  NoDup ((fun p => o_id (m' p)) <$> ps.*1) /\
  (forall p, p ∈ ps.*1 -> o_id (m' p) ∉ acked_ids h) /\
  (forall p, p ∈ ps.*1 -> (cp_maxval C < 2 ^ 32)%N -> json_ok (cp_json C) (o_props (m' p)) -> Forall (fun f => (f < 2 ^ 32)%N) (default [] (o_vec (m' p))) ->
    exec (CollModel.get C [o_id (m' p)]) s' = Some (s', Val [m' p])) /\
  (forall p, o_props (m' p) = o_props (m p) /\ (o_vec (m p) <> None -> o_vec (m' p) = o_vec (m p))) /\
  (forall p, p ∉ ps.*1 -> m' p = m p).
Proof.
  intros C h s two io ps m s' m' rs Hh Hb64 Hnd Hw Hb Hz.
  destruct (hist0 _ _ _ Hh) as [HI _]; [lia|].
  destruct (ptr_values _ _ _ _ _ _ _ _ _ _ Hnd Hw (si_chan _ HI) Hb) as (H1 & H2 & H3 & H4).
  set (c := batch_call two io (vals m ps)) in H1. set (rs' := in_values m' <$> rs) in H1.
  assert (Hcase : c = CBatch io (vals m ps) \/ c = CBatch2 io (vals m ps)) by (unfold c, batch_call; destruct two; [by right|by left]).
  assert (Hz' : forall z, Pan z ∉ rs').
  { intros z (x & E & Hx)%elem_of_list_fmap. destruct x; try done. by apply (Hz p). }
  assert (Hlen : length (vals m ps) = length ps) by apply fmap_length.
  destruct (C35_batch_inserts_all_partial C h s io (vals m ps) s' rs' c Hcase Hh ltac:(lia) Hw H1 Hz') as ((os0 & He & Hp) & A1 & A2 & A3).
  assert (Hv : forall x, x ∈ rs -> exists l, x = Val l).
  { intros [l|e|z] Hx; [by exists l| |by destruct (Hz z)]. exfalso.
    eapply (batch_no_error C s c io (vals m ps) s' rs' e Hcase H1). apply elem_of_list_fmap. by exists (Err e). }
  assert (Hos : acked (EvCall c (RBatch (Val tt) rs')) = m' <$> mjoin (out_list <$> rs)).
  { assert (E : acked (EvCall c (RBatch (Val tt) rs')) = mjoin (out_list <$> rs')) by (by destruct Hcase as [-> | ->]).
    rewrite E. unfold rs'. clear -Hv. induction rs as [|x rs IH]; [done|]. destruct (Hv x ltac:(by left)) as [l ->]. cbn. rewrite fmap_app. f_equal.
    apply IH. intros x Hx. apply Hv. by right. }
  rewrite Hos in *.
  assert (Hl0 : length os0 = length ps).
  { destruct Hcase as [E | E]; rewrite E in H1; inversion H1 as [|? ? ? Hpr Hn|? ? os ? ? ? Hpr Hb1|? ? ? Hpr Hn|? ? os ? ? ? Hpr Hb1| | | | | | ]; subst.
    all: try (destruct (batch_prepare C s' (vals m ps).*1) as [os| |]; [by destruct (Hn os)|done..]).
    all: apply batch_prepare_val in Hpr as (_ & _ & Hem & Hlo); rewrite Hem in He; injection He as <-; rewrite Hlo, fmap_length; exact Hlen. }
  assert (Hperm : mjoin (out_list <$> rs) ≡ₚ ps.*1).
  { apply Permutation_length in Hp. rewrite !fmap_length in Hp.
    destruct (decide (rs = [])) as [->|Hrs].
    - cbn in *. destruct ps; [done|]. cbn in *. lia.
    - destruct (H4 Hrs Hv) as [N1 N2]. apply submseteq_Permutation_length_le; [rewrite fmap_length; lia|]. by apply NoDup_submseteq. }
  assert (Hin : forall p, p ∈ ps.*1 -> m' p ∈ m' <$> mjoin (out_list <$> rs)) by (intros p Hpp; apply elem_of_list_fmap; exists p; by rewrite Hperm).
  split_and!.
  - rewrite <- Hperm. by rewrite <- list_fmap_compose in A1.
  - intros p Hpp. apply A2. apply elem_of_list_fmap. exists (m' p). split; [done|by apply Hin].
  - intros p Hpp Hmax Hj Hf. by apply A3; [|apply Hin|..].
  - intros p. destruct (H3 p) as [B1 B2]. split; [done|]. intros Hn. apply B2. unfold needs_vec. by destruct (o_vec (m p)).
  - done.
Qed.
Print Assumptions C108_caller_sees_ids_partial.

(** ** Cases *)
Definition ptr_exec (C : cparams) (io : bool) (ps : list (nat * nat)) (sch : list nat) (rounds : nat) (s : st) (m : cmem) : option (st * cmem * list (out (list nat))) :=
  match prepare_ptr C s ps.*1 m with
  | (m1, Val _) =>
      match run_sched (PSt s m1 [], threads_ptr C false ps) sch with
      | None => None
      | Some y =>
          let '(x, ts) := run_rounds rounds y (seq 0 (cp_workers C)) in
          match dones ts with
          | None => None
          | Some rs =>
              match first_err rs with
              | Some _ => None
              | None => match wal_flush io (p_st x) with (s2, Val _) => Some (s2, p_mem x, rs) | _ => None end
              end
          end
      end
  | _ => None
  end.
Lemma ptr_exec_run C io ps sch rounds s m s' m' rs : ptr_exec C io ps sch rounds s m = Some (s', m', rs) -> batch_ptr C false io ps s m s' m' (Val tt) rs.
Proof.
  unfold ptr_exec. destruct (prepare_ptr C s ps.*1 m) as [m1 [[]| |]] eqn:Ep; [|done..]. destruct (run_sched _ _) as [y|] eqn:E1; [|done].
  destruct (run_rounds rounds y _) as [x ts] eqn:E2. destruct (dones ts) as [rs1|] eqn:E3; [|done]. apply dones_eq in E3 as ->.
  destruct (first_err rs1) eqn:E4; [done|]. destruct (wal_flush io (p_st x)) as [s2 [[]| |]] eqn:E5; [|done..]. intros [= <- <- <-].
  eapply (PtrOk C false io ps s m m1 s x); [exact Ep|done| | |exact E5].
  - etrans; [by eapply run_sched_reach|]. rewrite <- E2. apply run_rounds_reach.
  - intros e. by apply first_err_none.
Qed.

(** The same pointer twice, two workers: both take an id, both write it into
    the object, and both go on with the second one.  The batch succeeds and
    no worker panics, but one object is stored, not two, and Get of the first
    id finds nothing. *)
Theorem C108_same_pointer_refuted : exists C h s io ps m s' m' rs,
  hist C empty_st h s /\ exec get_size s = Some (s, Val 0) /\ length ps = 2 /\ 0 < cp_workers C /\
  batch_ptr C false io ps s m s' m' (Val tt) rs /\ (forall z, Pan z ∉ rs) /\
  exec get_size s' = Some (s', Val 1) /\ exec (CollModel.get C [0%N]) s' = Some (s', Val []).
Proof.
  set (m := fun _ : nat => Object 0 ∅ (Some [1065353216%N])). set (ps := [(0, 0); (0, 0)]).
  assert (match ptr_exec ex_C true ps [0; 1; 0; 1] 200 empty_st m with
    | Some (s', m', rs) => forallb (fun r => match r with Val _ => true | _ => false end) rs &&
        match exec get_size s' with Some (_, Val 1) => true | _ => false end &&
        match exec (CollModel.get ex_C [0%N]) s' with Some (_, Val []) => true | _ => false end
    | None => false
    end = true) as H by (vm_compute; reflexivity).
  destruct (ptr_exec ex_C true ps [0; 1; 0; 1] 200 empty_st m) as [[[s' m'] rs]|] eqn:E; [|done].
  apply andb_true_iff in H as [H H3]. apply andb_true_iff in H as [H1 H2].
  exists ex_C, [], empty_st, true, ps, m, s', m', rs. split_and!; [constructor|done|done|cbn; lia|by eapply ptr_exec_run| | |].
  - intros z Hz. rewrite forallb_forall in H1. specialize (H1 (Pan z)). rewrite <- elem_of_list_In in H1. by specialize (H1 Hz).
  - clear -H2. unfold get_size in *. rewrite exec_act in *. cbn [fst snd] in *. destruct (closed s'); [done|]. by destruct (store_size s') as [|[|]].
  - clear -H3. unfold CollModel.get in *. rewrite exec_act in *. cbn [fst snd] in *. destruct (closed s'); [done|].
    by destruct (get_objects _ _ _) as [[|o l]| |].
Qed.
Print Assumptions C108_same_pointer_refuted.

(** Two pointers, two workers, and the ids they have afterwards. *)
Example C108_case : exists h s s' m' rs,
  let ps := [(3, 0); (5, 1)] in
  let m := fun p : nat => Object 7 ∅ (Some [if (p =? 3)%nat then 1065353216%N else 0%N]) in
  hist ex_C empty_st h s /\ (N.of_nat (hist_inserts h + length ps) < 2 ^ 64)%N /\ NoDup ps.*1 /\ 0 < cp_workers ex_C /\
  batch_ptr ex_C false true ps s m s' m' (Val tt) rs /\ (forall z, Pan z ∉ rs) /\ o_id (m' 3) = 1%N /\ o_id (m' 5) = 0%N /\ m' 4 = m 4 /\
  json_ok (cp_json ex_C) (o_props (m' 3)).
Proof.
  set (m := fun p : nat => Object 7 ∅ (Some [if (p =? 3)%nat then 1065353216%N else 0%N])). set (ps := [(3, 0); (5, 1)]).
  assert (match ptr_exec ex_C true ps [1; 0; 0] 200 empty_st m with
    | Some (s', m', rs) => forallb (fun r => match r with Val _ => true | _ => false end) rs && N.eqb (o_id (m' 3)) 1 && N.eqb (o_id (m' 5)) 0
    | None => false
    end = true) as H by (vm_compute; reflexivity).
  destruct (ptr_exec ex_C true ps [1; 0; 0] 200 empty_st m) as [[[s' m'] rs]|] eqn:E; [|done].
  apply andb_true_iff in H as [H H3]. apply andb_true_iff in H as [H1 H2]. apply N.eqb_eq in H2, H3. apply ptr_exec_run in E.
  assert (Hnd : NoDup ps.*1) by (apply (bool_decide_eq_true_1 _); reflexivity).
  destruct (C108_pointers_are_values_partial ex_C [] empty_st false true ps m s' m' (Val tt) rs ltac:(constructor) ltac:(done) Hnd ltac:(cbn; lia) E) as (_ & Ho & Hc).
  exists [], empty_st, s', m', rs. split_and!; [constructor|done|exact Hnd|cbn; lia|done| |done|done| |].
  - intros z Hz. rewrite forallb_forall in H1. specialize (H1 (Pan z)). rewrite <- elem_of_list_In in H1. by specialize (H1 Hz).
  - apply Ho. apply (bool_decide_eq_true_1 _). reflexivity.
  - destruct (Hc 3) as [-> _]. eexists. by split.
Qed.
