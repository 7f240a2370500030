(** C109-C110: a collection is its index, used one call at a time with restarts
    in between. *)
From stdpp Require Import relations sorting.
From Coq Require Import SpecFloat.
From Verif Require Import GoBase FloatModel HeapModel ProgModel StateModel WalModel HnswModel StoreModel CollModel CallModel
  ProofBase CodecProofs CodecSpec WpProofs StepProofs WalProofs HnswProofs IndexProofs IndexHist CallProofs StoreProofs StoreView HistProofs
  SimProofs RestoreProofs AlignProofs CollWf IdxProofs PropIndex PropExact HistRun PropStore PropRestore PropGrowth.
Open Scope nat_scope.

(** The log never has as many records as its numbers can count. *)
Lemma few_records C h s : hist C empty_st h s -> (N.of_nat (sum_list (ev_records (cp_h C) <$> h)) + 1 < 2 ^ 64)%N -> log_small C h s.
Proof.
  intros _ Hr h1 h2 s1 -> H1 _. pose proof (C90_log_records _ _ _ _ H1) as Hl. change (length (log_view empty_st)) with 0 in Hl.
  rewrite fmap_app in Hr.
  assert (E : forall a b, sum_list (a ++ b) = sum_list a + sum_list b) by (induction a as [|x a IH]; intros b; [done|]; cbn; rewrite IH; lia).
  rewrite E in Hr. lia.
Qed.

(** A collection used one call at a time, restarted in between now and then:
    sensible parameters, one dimension, a disk that takes every write, fewer
    inserts than ids and fewer log records than record numbers. *)
Record plain_use (C : cparams) (n B : nat) (h : list event) (s : st) : Prop := MkPlain {
  pu_use : use_ok C n B;
  pu_hist : hist C empty_st h s;
  pu_tidy : Forall (tidy_ev C n) h;
  pu_fed : fed_first h;
  pu_log : (N.of_nat (sum_list (ev_records (cp_h C) <$> h)) + 1 < 2 ^ 64)%N;
  pu_ins : hist_inserts h <= B
}.

Lemma plain_matched C n B h s : plain_use C n B h s ->
  exists t rs X, matched C n (acked_ids h) (index_ops h) s t rs X.
Proof.
  intros [[HP Hk HB HB64 [Hmax Hdeg] HJ] Hh Ht Hf Hl Hn].
  apply (hist_matches C n B HP Hk HB HB64 Hmax Hdeg HJ h s); try done. by apply few_records.
Qed.
Lemma plain_tidy C n B h s : plain_use C n B h s ->
  WfI C n B false s /\ (cnt s <= N.of_nat B)%N /\ (forall id, id ∈ acked_ids h -> is_Some (nodes s !! id)).
Proof.
  intros [[HP Hk HB HB64 [Hmax Hdeg] HJ] Hh Ht Hf Hl Hn]. apply (few_records _ _ _ Hh) in Hl.
  destruct (hist_tidy C n B false HP (seq_slack _ HP) Hk HB HB64 Hmax Hdeg HJ h s Hh Ht Hf Hn Hl) as (HW & _ & _ & Hc & Ha).
  split_and!; [done|lia|done].
Qed.

(** ** C109 A collection searches like an index *)
(** The index on its own, given the acknowledged insertions and deletions only,
    has the same vertices, links, vectors, entry point and top layer as that of
    the collection, and the same vertices are deleted. *)
Theorem C109_collection_is_its_index : forall C n B h s, plain_use C n B h s ->
  hist_ok (cp_h C) n (index_ops h) /\ hist_ins (index_ops h) = acked_ids h /\
  exists t rs, irun (cp_h C) (cp_fuel C) (index_ops h) empty_st = Some (t, rs) /\ Forall (fun r => r = Val []) rs /\
    nodes s = nodes t /\ ep s = ep t /\ maxl s = maxl t /\
    (forall id, is_Some (nodes s !! id) -> (id ∈ deleted s <-> id ∈ deleted t)).
Proof.
  intros C n B h s HU. destruct (plain_matched _ _ _ _ _ HU) as (t & rs & X & HM). destruct (plain_tidy _ _ _ _ _ HU) as (HW & Hc & Ha).
  pose proof (pu_use _ _ _ _ _ HU) as [HP Hk HB HB64 _ _].
  destruct (matched_inv C n B HP Hk HB _ _ _ _ _ _ HM Hc) as (HH & Hnid & Hdel).
  destruct HM as [H1 H2 [A1 A2 A3 A4 A5 A6] H4 H5 H6 H7 H8]. split_and!; [done..|]. exists t, rs. split_and!; try done.
  intros id Hid. apply Hnid in Hid. rewrite Hdel, (hi_del _ _ _ _ _ HH), elem_of_list_to_set. split; [|by left].
  intros [?|HX]; [done|]. by destruct (H4 id HX).
Qed.
Print Assumptions C109_collection_is_its_index.

(** ... and it gives the same answers. *)
Theorem C109_same_answers : forall C n B h s o o' k, plain_use C n B h s ->
  acked_ids h <> [] -> closed s = false -> embed_objects C [o] = Val [o'] -> length (vec_or_nil o') = n -> (0 <= k)%Z ->
  exists t rs es hs,
    irun (cp_h C) (cp_fuel C) (index_ops h ++ [ISearch (vec_or_nil o') k]) empty_st = Some (t, rs ++ [Val es]) /\
    exec (semantic_search C 0 o k) s = Some (s, Val (length hs, hs)) /\
    Forall2 (fun e x => h_id x = e_id e /\ h_dist x = e_dist e) es hs.
Proof.
  intros C n B h s o o' k HU Hne Hcl He Hd Hk0. destruct (plain_matched _ _ _ _ _ HU) as (t & rs & X & HM). destruct (plain_tidy _ _ _ _ _ HU) as (HW & Hc & Ha).
  pose proof HU as [[HP Hk HB HB64 [Hmax Hdeg] HJ] Hh Ht Hf Hl Hn].
  destruct (matched_inv C n B HP Hk HB _ _ _ _ _ _ HM Hc) as (HH & Hnid & Hdel).
  destruct (HInv_search (cp_h C) (fun v => length v = n) (list_to_set (acked_ids h)) (cp_fuel C)) with (ops := index_ops h) (s := t) (q := vec_or_nil o') (k := k) as (near & Hx & _); try done.
  { intros v1 v2 Hv1 Hv2. by eapply dist_total. }
  { pose proof (mt_len _ _ _ _ _ _ _ _ HM). pose proof (hok_ids _ _ _ (mt_ok _ _ _ _ _ _ _ _ HM)) as Hnd. rewrite (mt_ins _ _ _ _ _ _ _ _ HM) in Hnd. rewrite size_list_to_set by done. lia. }
  { by rewrite (mt_ins _ _ _ _ _ _ _ _ HM). }
  set (es := take _ _) in Hx. clearbody es.
  assert (Hs : exec (hnsw_search (cp_h C) 0 (cp_fuel C) (vec_or_nil o') k) s = Some (s, Val es)).
  { eapply (search_same (cp_h C) 0 X); [apply (mt_alike _ _ _ _ _ _ _ _ HM)| |exact Hx]. intros id Hid HX.
    rewrite <- (al_nodes _ _ _ (mt_alike _ _ _ _ _ _ _ _ HM)) in Hid. apply Hnid in Hid. by destruct (mt_out _ _ _ _ _ _ _ _ HM id HX). }
  assert (Hen : enc_ok C s) by (eapply hist_enc; [exact Hh|apply enc_empty]).
  assert (Hne2 : nodes s <> ∅).
  { intros E2. destruct (acked_ids h) as [|i l]; [done|]. destruct (Ha i ltac:(by left)) as [v Hv]. by rewrite E2 in Hv. }
  destruct (wf_search C n B false HP (seq_slack _ HP) Hk HB HB64 o k s Hmax HJ Hen HW Hne2) as (r & Hx2 & _ & Hv); try done.
  { split; [by rewrite He|]. intros os o2. rewrite He. intros <-%Val_inj Ho2%elem_of_list_singleton. by subst. }
  destruct (Hv Hcl ltac:(by rewrite He)) as (m & hs & ->).
  destruct (search_aligned _ _ _ _ _ _ _ (wf_al _ _ _ _ _ HW) Hx2) as (o2 & es2 & He2 & Hs2 & -> & HF).
  rewrite He in He2. apply Val_inj in He2 as [= <-]. rewrite Hs in Hs2. injection Hs2 as <-.
  exists t, rs, es, hs. split_and!; [|done|].
  - eapply irun_snoc; [apply (mt_run _ _ _ _ _ _ _ _ HM)|]. exact Hx.
  - eapply Forall2_impl; [exact HF|]. intros e x (E1 & E2 & _). done.
Qed.
Print Assumptions C109_same_answers.

(** ** C110 What a search of a collection answers *)
(** The objects a caller may expect to be there: acknowledged, and no Delete of
    their id has succeeded since. *)
Definition alive_step (l : list object) (e : event) : list object :=
  match e with
  | EvCall _ (RIns (Val o)) => l ++ [o]
  | EvCall (CDelete _ id) (RUnit (Val _)) => filter (fun o => o_id o <> id) l
  | _ => l
  end.
Definition alive (h : list event) : list object := foldl alive_step [] h.

(** The hits are in order of distance, differ, and each is one of [l] with its
    distance from [q]; no more than [k] nor than [ef] of them; [json_ok]: its properties survive the JSON codec. *)
Record hits_ok (J : json) (kind : dist_kind) (ef : nat) (l : list object) (q : fvec) (k : Z) (hs : list hit) : Prop := MkHitsOk {
  ho_k : (Z.of_nat (length hs) <= k)%Z;
  ho_ef : length hs <= ef;
  ho_sorted : StronglySorted (fun a b => SFltb (h_dist b) (h_dist a) = false) hs;
  ho_distinct : NoDup (h_id <$> hs);
  ho_true : forall x, x ∈ hs -> exists o, o ∈ l /\ o_id o = h_id x /\ (json_ok J (o_props o) -> h_props x = o_props o) /\
    dist_func kind (vec_or_nil o) q = Val (h_dist x)
}.
(** ... and none is missing. *)
Record hits_exact (kind : dist_kind) (l : list object) (q : fvec) (k : Z) (hs : list hit) : Prop := MkHitsExact {
  he_count : length hs = Nat.min (Z.to_nat k) (length l);
  he_best : forall x o d, x ∈ hs -> o ∈ l -> o_id o ∉ h_id <$> hs -> dist_func kind (vec_or_nil o) q = Val d ->
    SFltb d (h_dist x) = false
}.

Lemma alive_snoc h e : alive (h ++ [e]) = alive_step (alive h) e.
Proof. unfold alive. by rewrite foldl_app. Qed.

(** The calls of a plain use, one by one. *)
Lemma plain_snoc C n B h e s : plain_use C n B (h ++ [e]) s -> exists s1, plain_use C n B h s1 /\ ev_step C s1 e s.
Proof.
  intros [HU Hh Ht Hf Hl Hn]. inversion Hh as [|h' e' s1 s2 Hh1 Hs E]; [by destruct h|]. apply app_inj_tail in E as [-> ->]. exists s1. split; [|done].
  apply Forall_app in Ht as [Ht _]. rewrite hist_inserts_snoc in Hn. rewrite fmap_app in Hl.
  assert (E : forall a b, sum_list (a ++ b) = sum_list a + sum_list b) by (induction a as [|x a IH]; intros b; [done|]; cbn; rewrite IH; lia).
  rewrite E in Hl. split; try done; [by eapply fed_first_snoc|lia|lia].
Qed.

Lemma live_insert ops level v id : NoDup (hist_ins (ops ++ [IInsert level v id])) -> (forall i, i ∈ hist_del ops -> i ∈ hist_ins ops) ->
  live_ids (ops ++ [IInsert level v id]) = live_ids ops ++ [id].
Proof.
  rewrite hist_ins_app. intros (_ & Hd & _)%NoDup_app Hs. unfold live_ids. rewrite hist_ins_app, hist_del_app. cbn. rewrite app_nil_r, filter_app. f_equal.
  rewrite filter_cons, filter_nil. rewrite decide_True; [done|]. intros Hi%Hs. apply (Hd id Hi). by left.
Qed.
Lemma live_delete ops id : live_ids (ops ++ [IDelete id]) = filter (fun i => i <> id) (live_ids ops).
Proof.
  unfold live_ids. rewrite hist_ins_app, hist_del_app. cbn. rewrite app_nil_r. induction (hist_ins ops) as [|i l IH]; [done|].
  rewrite !filter_cons. destruct (decide (i ∈ hist_del ops)) as [Hi|Hi].
  - rewrite !decide_False; [done|by intros ?|]. intros Hn. apply Hn. apply elem_of_app. by left.
  - rewrite (decide_True _ _ Hi), filter_cons. destruct (decide (i = id)) as [->|Hne].
    + rewrite !decide_False; [done|by intros ?|]. intros Hn. apply Hn. apply elem_of_app. right. by left.
    + rewrite !decide_True; [by rewrite IH|done|]. rewrite elem_of_app, elem_of_list_singleton. by intros [?|?].
Qed.
Lemma filter_ids (l : list object) id : filter (fun i => i <> id) (o_id <$> l) = o_id <$> filter (fun o => o_id o <> id) l.
Proof.
  induction l as [|o l IH]; [done|]. rewrite fmap_cons, !filter_cons. destruct (decide (o_id o = id)) as [E|E].
  - rewrite !decide_False; [done|by intros ?..].
  - rewrite !decide_True by done. by rewrite fmap_cons, IH.
Qed.
Lemma filter_id {A} (Q : A -> Prop) `{forall x, Decision (Q x)} (l : list A) : Forall Q l -> filter Q l = l.
Proof. induction 1 as [|x l Hx Hl IH]; [done|]. by rewrite filter_cons_True, IH. Qed.

(** What [alive] says, in terms of the operations of the index. *)
Lemma alive_ops C n B h s : plain_use C n B h s ->
  o_id <$> alive h = live_ids (index_ops h) /\
  (forall o, o ∈ alive h -> o ∈ mjoin (acked <$> h) /\ exists level, IInsert level (vec_or_nil o) (o_id o) ∈ index_ops h) /\
  (forall v, v ∈ hist_vecs (index_ops h) -> exists o, o ∈ mjoin (acked <$> h) /\ v = vec_or_nil o).
Proof.
  revert s. induction h as [|e h IH] using rev_ind; intros s HU.
  { split_and!; [done|by intros o ?%elem_of_nil|by intros v ?%elem_of_nil]. }
  destruct (C109_collection_is_its_index _ _ _ _ _ HU) as (Hok & Hin & _). destruct (plain_snoc _ _ _ _ _ _ HU) as (s1 & HU1 & Hs).
  destruct (plain_matched _ _ _ _ _ HU1) as (t & rs & X & HM). destruct (IH s1 HU1) as (IH1 & IH2 & IH3). clear IH.
  rewrite alive_snoc. rewrite index_ops_snoc in *. rewrite fmap_app, mjoin_app. cbn [fmap list_fmap mjoin list_join]. rewrite app_nil_r.
  assert (Hw : forall o, o ∈ alive h -> o ∈ mjoin (acked <$> h) ++ acked e /\ exists level, IInsert level (vec_or_nil o) (o_id o) ∈ index_ops h ++ ev_ops (acked_ids h) e).
  { intros o Ho. destruct (IH2 o Ho) as [Hc (l & Hl)]. split; [apply elem_of_app; by left|]. exists l. apply elem_of_app. by left. }
  assert (Hv : forall v, v ∈ hist_vecs (index_ops h) -> exists o, o ∈ mjoin (acked <$> h) ++ acked e /\ v = vec_or_nil o).
  { intros v (o & Ho & ->)%IH3. exists o. split; [apply elem_of_app; by left|done]. }
  assert (Hkeep : alive_step (alive h) e = alive h -> ev_ops (acked_ids h) e = [] ->
    o_id <$> alive_step (alive h) e = live_ids (index_ops h ++ ev_ops (acked_ids h) e) /\
    (forall o, o ∈ alive_step (alive h) e -> o ∈ mjoin (acked <$> h) ++ acked e /\ exists level, IInsert level (vec_or_nil o) (o_id o) ∈ index_ops h ++ ev_ops (acked_ids h) e) /\
    (forall v, v ∈ hist_vecs (index_ops h ++ ev_ops (acked_ids h) e) -> exists o, o ∈ mjoin (acked <$> h) ++ acked e /\ v = vec_or_nil o)).
  { intros -> E. split_and!; [by rewrite E, app_nil_r|done|]. by rewrite E, app_nil_r. }
  pose proof (pu_tidy _ _ _ _ _ HU) as He. apply Forall_app in He as [_ He]. apply Forall_cons in He as [He _].
  inversion Hs as [c s3 r Hr|s3 Hr|c m s3 s4 Hcut Hr]; subst; [|by apply Hkeep|done].
  inversion Hr as [io level o s2 r1 Hx|io ol r1 Hp Hn|io ol os s2 r1 rs1 Hp Hb|io ol r1 Hp Hn|io ol os s2 r1 rs1 Hp Hb|io id f s2 r1 Hlk Hx|ids s2 r1 Hx|o k s2 r1 Hx|s2 r1 Hx|o s2 r1 Hx|s2 r1 Hx]; subst; try done; try by apply Hkeep.
  - destruct r1 as [o2|e|z]; [|by apply Hkeep..]. cbn [alive_step acked ev_ops] in *. split_and!.
    + rewrite live_insert; [by rewrite fmap_app, IH1|apply (hok_ids _ _ _ Hok)|]. rewrite (mt_ins _ _ _ _ _ _ _ _ HM). apply (mt_del _ _ _ _ _ _ _ _ HM).
    + intros o3 [Ho|Ho%elem_of_list_singleton]%elem_of_app; [by apply Hw|]. subst o3. split; [apply elem_of_app; right; by left|]. exists level. apply elem_of_app. right. by left.
    + intros v. rewrite hist_vecs_app. intros [?|Hv2%elem_of_list_singleton]%elem_of_app; [by apply Hv|]. exists o2. split; [apply elem_of_app; right; by left|done].
  - destruct r1 as [u|e|z]; [|by apply Hkeep..]. cbn [alive_step acked ev_ops] in *. rewrite <- filter_ids, IH1. case_bool_decide as Hg.
    + split_and!.
      * by rewrite live_delete.
      * intros o Ho. apply elem_of_list_filter in Ho as [_ Ho]. by apply Hw.
      * intros v. rewrite hist_vecs_app. cbn. rewrite app_nil_r. apply Hv.
    + rewrite !app_nil_r. split_and!.
      * apply filter_id, Forall_forall. intros i Hi ->. apply Hg. unfold live_ids in Hi. apply elem_of_list_filter in Hi as [_ Hi].
        by rewrite (mt_ins _ _ _ _ _ _ _ _ HM) in Hi.
      * intros o Ho. apply elem_of_list_filter in Ho as [_ Ho]. by apply IH2.
      * done.
Qed.

(** An acknowledged object whose properties are still there is there as it was
    acknowledged. *)
Lemma acked_still C h s o ob : hist C empty_st h s -> (N.of_nat (hist_inserts h) < 2 ^ 64)%N -> o ∈ mjoin (acked <$> h) ->
  objs s !! id_key (o_id o) = Some ob -> stored C s o.
Proof.
  intros Hh Hb Ho Hob. apply elem_of_list_join in Ho as (l & Hol & Hl). apply elem_of_list_fmap in Hl as (e & -> & He).
  apply elem_of_list_split in He as (h1 & h2 & ->).
  destruct (hist_app_inv C _ _ _ _ Hh) as (s1 & H1 & H2). change (e :: h2) with ([e] ++ h2) in *.
  destruct (hist_app_inv C _ _ _ _ H2) as (s2 & H3 & H4). rewrite !hist_inserts_app in Hb. change (hist_inserts [e]) with (ev_inserts e + 0) in Hb.
  destruct (hist_store C empty_st h1 s1 SInv_empty) as [HI1 Hc1]; [change (cnt empty_st) with 0%N; lia|done|]. change (cnt empty_st) with 0%N in Hc1.
  inversion H3 as [|h e' sa sb Ha Hs E]; subst. change [e] with ([] ++ [e]) in E. apply app_inj_tail in E as [-> ->].
  assert (sa = s1) as ->. { inversion Ha as [|h' e' ? ? ? ? E]; [done|]. by destruct h'. }
  destruct (acked_stored C s1 e s2 o HI1 ltac:(lia) Hs Hol) as (Hst & Hid & _).
  destruct (ev_step_store C s1 e s2 HI1 ltac:(lia) Hs) as (HI2 & ids & Hw). pose proof (ew_cnt _ _ _ _ _ Hw) as Hcc.
  destruct (hist_keep C s2 h2 s (o_id o) HI2 ltac:(lia) H4 Hid) as [K1 K2].
  destruct Hst as (ob' & vb & A1 & A2 & A3 & A4 & A5 & A6). exists ob', vb. split_and!; try done; [|congruence].
  destruct K2 as [K2|[K2 _]]; congruence.
Qed.

Lemma ins_unique ops l1 l2 v1 v2 id : NoDup (hist_ins ops) -> IInsert l1 v1 id ∈ ops -> IInsert l2 v2 id ∈ ops -> v1 = v2.
Proof.
  induction ops as [|o ops IH]; intros Hnd H1 H2; [by apply elem_of_nil in H1|].
  change (o :: ops) with ([o] ++ ops) in Hnd. rewrite hist_ins_app in Hnd. apply NoDup_app in Hnd as (_ & Hd & Hnd).
  assert (Hx : forall l v, o = IInsert l v id -> forall l' v', IInsert l' v' id ∈ ops -> False).
  { intros l v -> l' v' H'. apply (Hd id); [by left|]. by eapply hist_ins_in. }
  apply elem_of_cons in H1 as [H1|H1]; apply elem_of_cons in H2 as [H2|H2]; [congruence|by destruct (Hx _ _ (eq_sym H1) _ _ H2)|by destruct (Hx _ _ (eq_sym H2) _ _ H1)|by apply IH].
Qed.
Lemma hist_ok_search P n ops q k : hist_ok P n ops -> length q = n -> hist_ins ops <> [] -> (0 <= k)%Z -> hist_ok P n (ops ++ [ISearch q k]).
Proof.
  intros [H1 H2 H3 H4] Hq Hne Hk. split; [done| | |].
  - intros w. rewrite hist_vecs_app. intros [?|Hw%elem_of_list_singleton]%elem_of_app; [by apply H2|]. by subst.
  - rewrite hist_ins_app. cbn. by rewrite app_nil_r.
  - intros pre q2 k2 post E. destruct post as [|o post _] using rev_ind; [apply app_inj_tail in E as [-> [= <- <-]]; done|].
    rewrite app_comm_cons, app_assoc in E. apply app_inj_tail in E as [-> _]. by eapply H4.
Qed.
Lemma del_in ops id : IDelete id ∈ ops <-> id ∈ hist_del ops.
Proof.
  unfold hist_del. rewrite elem_of_list_join. split.
  - intros H. exists [id]. split; [by left|]. apply elem_of_list_fmap. by exists (IDelete id).
  - intros (l & Hl & Hin). apply elem_of_list_fmap in Hin as (o & -> & Ho). destruct o as [l2 v i|i|q k]; cbn in Hl; try by apply elem_of_nil in Hl.
    by apply elem_of_list_singleton in Hl as ->.
Qed.
Lemma sorted_hits es hs : Forall2 (fun e x => h_id x = e_id e /\ h_dist x = e_dist e) es hs -> StronglySorted not_further es ->
  StronglySorted (fun a b => SFltb (h_dist b) (h_dist a) = false) hs.
Proof.
  induction 1 as [|e x es hs [_ Ed] HF IH]; intros Hs; [constructor|]. inversion Hs as [|? ? Hs' Hall]; subst. constructor; [by apply IH|].
  apply Forall_forall. intros y Hy. apply elem_of_list_lookup in Hy as (i & Hi). destruct (Forall2_lookup_r _ _ _ _ _ HF Hi) as (e2 & He2 & _ & Ed2).
  rewrite Forall_forall in Hall. rewrite Ed, Ed2. apply Hall. by eapply elem_of_list_lookup_2.
Qed.
Lemma ids_hits es hs : Forall2 (fun e x => h_id x = e_id e /\ h_dist x = e_dist e) es hs -> h_id <$> hs = e_id <$> es.
Proof. induction 1 as [|e x es hs [E _] HF IH]; [done|]. by rewrite !fmap_cons, E, IH. Qed.

Theorem C110_search_answers : forall C n B h s o o' k, plain_use C n B h s ->
  acked_ids h <> [] -> closed s = false -> embed_objects C [o] = Val [o'] -> length (vec_or_nil o') = n -> (0 <= k)%Z ->
  no_nan (cp_h C) (vec_or_nil o' :: (vec_or_nil <$> mjoin (acked <$> h))) ->
  exists hs, exec (semantic_search C 0 o k) s = Some (s, Val (length hs, hs)) /\
    hits_ok (cp_json C) (hp_dist (cp_h C)) (hp_ef (cp_h C)) (alive h) (vec_or_nil o') k hs /\
    (hp_heuristic (cp_h C) = false -> length (acked_ids h) <= S (hp_m (cp_h C)) -> length (acked_ids h) <= S (hp_efc (cp_h C)) ->
     length (acked_ids h) <= hp_ef (cp_h C) -> hits_exact (hp_dist (cp_h C)) (alive h) (vec_or_nil o') k hs).
Proof.
  intros C n B h s o o' k HU Hne Hcl He Hd Hk0 Hnan.
  destruct (C109_same_answers _ _ _ _ _ _ _ _ HU Hne Hcl He Hd Hk0) as (t & rs & es & hs & Hr & Hx & HF). exists hs. split; [done|].
  destruct (C109_collection_is_its_index _ _ _ _ _ HU) as (Hok & Hins & _). destruct (plain_tidy _ _ _ _ _ HU) as (HW & Hc & Ha).
  destruct (plain_matched _ _ _ _ _ HU) as (tm & rsm & X & HM).
  destruct (alive_ops _ _ _ _ _ HU) as (HA1 & HA2 & HA3).
  assert (Hok2 : hist_ok (cp_h C) n (index_ops h ++ [ISearch (vec_or_nil o') k])) by (apply hist_ok_search; try done; by rewrite Hins).
  assert (Hnan2 : no_nan (cp_h C) (vec_or_nil o' :: hist_vecs (index_ops h))).
  { assert (Hsub : forall v, v ∈ vec_or_nil o' :: hist_vecs (index_ops h) -> v ∈ vec_or_nil o' :: (vec_or_nil <$> mjoin (acked <$> h))).
    { intros v [-> |Hv]%elem_of_cons; [by left|]. right. destruct (HA3 v Hv) as (oo & Hoo & ->). apply elem_of_list_fmap. by exists oo. }
    intros v w d Hv Hw. apply Hnan; by apply Hsub. }
  pose proof HU as [[HP Hk HB HB64 [Hmax Hdeg] HJ] Hh Ht Hf Hl Hn].
  assert (Hlen : length (hist_ins (index_ops h)) <= cp_fuel C) by (rewrite Hins; pose proof (mt_len _ _ _ _ _ _ _ _ HM); lia).
  pose proof (Forall2_length _ _ _ HF) as Elen. pose proof (ids_hits _ _ HF) as Eids.
  assert (Hof : forall x, x ∈ hs -> exists e, e ∈ es /\ h_id x = e_id e /\ h_dist x = e_dist e).
  { intros x Hxs. apply elem_of_list_lookup in Hxs as (i & Hi). destruct (Forall2_lookup_r _ _ _ _ _ HF Hi) as (e & Hei & E1 & E2).
    exists e. split; [by eapply elem_of_list_lookup_2|done]. }
  assert (Hprops : forall x, x ∈ hs -> exists ob, objs s !! id_key (h_id x) = Some ob /\ de_props (cp_json C) ob = Val (h_props x)).
  { destruct (search_aligned _ _ _ _ _ _ _ (wf_al _ _ _ _ _ HW) Hx) as (o2 & es2 & _ & _ & _ & HF2). intros x Hxs.
    apply elem_of_list_lookup in Hxs as (i & Hi). destruct (Forall2_lookup_r _ _ _ _ _ HF2 Hi) as (e & _ & E1 & _ & ob & Hob & Hp).
    exists ob. by rewrite E1. }
  assert (Hlive : forall id, id ∈ live_ids (index_ops h) -> exists oo, oo ∈ alive h /\ o_id oo = id).
  { intros id. rewrite <- HA1. intros (oo & -> & Hoo)%elem_of_list_fmap. by exists oo. }
  split.
  - destruct (C16_search_answers (cp_h C) n (cp_fuel C) (index_ops h) (vec_or_nil o') k HP Hok2 Hlen Hnan2) as (t2 & rs2 & res & Hr2 & [R1 R2 R3 R4 R5]).
    rewrite Hr in Hr2. injection Hr2 as _ Hr2. apply app_inj_tail in Hr2 as [_ Hr2]. apply Val_inj in Hr2 as <-.
    split; [by rewrite <- Elen|by rewrite <- Elen|by eapply sorted_hits|by rewrite Eids|].
    intros x Hxs. destruct (Hof x Hxs) as (e & Hes & E1 & E2). destruct (R5 e Hes) as (Hnd & level & v & Hi & Hdist).
    destruct (Hlive (e_id e)) as (oo & Hoo & Eoo).
    { unfold live_ids. apply elem_of_list_filter. split; [by rewrite <- del_in|]. by eapply hist_ins_in. }
    exists oo. destruct (HA2 oo Hoo) as [Hac (level' & Hi')]. split_and!; [done|congruence| |].
    + intros Hj. destruct (Hprops x Hxs) as (ob & Hob & Hp).
      assert (Hob2 : objs s !! id_key (o_id oo) = Some ob) by (rewrite Eoo, <- E1; done).
      destruct (acked_still C h s oo ob Hh ltac:(lia) Hac Hob2) as (ob2 & vb & A1 & A2 & A3 & A4 & A5 & A6).
      rewrite Hob2 in A3. injection A3 as <-. destruct Hj as (js & J1 & J2).
      pose proof (ser_props_eq _ _ _ J1) as E3. rewrite A1 in E3. apply Val_inj in E3.
      assert (Hjs : (N.of_nat (length js) < 2 ^ 32)%N) by (rewrite E3, app_length, le_put_length in A5; lia).
      destruct (de_ser_props (cp_json C) _ _ [] J1 Hjs) as (b & Eb & Hde). rewrite A1 in Eb. apply Val_inj in Eb as <-.
      rewrite app_nil_r, J2 in Hde. rewrite Hde in Hp. by apply Val_inj in Hp.
    + rewrite E2. rewrite Eoo in Hi'. by rewrite (ins_unique _ _ _ _ _ _ (hok_ids _ _ _ Hok) Hi' Hi).
  - intros Hheur HM1 HM2 HM3. rewrite <- Hins in HM1, HM2, HM3.
    destruct (C18_small_collections_exact_partial (cp_h C) n (cp_fuel C) (index_ops h) (vec_or_nil o') k HP Hok2 Hlen Hnan2 Hheur HM1 HM2 HM3) as (t2 & rs2 & res & Hr2 & [R1 R2 R3 R4 R5]).
    rewrite Hr in Hr2. injection Hr2 as _ Hr2. apply app_inj_tail in Hr2 as [_ Hr2]. apply Val_inj in Hr2 as <-.
    split.
    + rewrite <- Elen, R1, <- HA1, fmap_length. done.
    + intros x oo d Hxs Hoo Hnin Hdd. destruct (Hof x Hxs) as (e & Hes & E1 & E2). rewrite E2. destruct (HA2 oo Hoo) as [_ (level & Hi)].
      eapply R5; [done|exact Hi| |by rewrite <- Eids|done]. rewrite <- HA1. apply elem_of_list_fmap. by exists oo.
Qed.
Print Assumptions C110_search_answers.

(** Five acknowledged inserts; a delete, one of an id never given out, one while
    the collection is closed; two restarts. *)
Definition C110_C : cparams := CParams (HParams 4 4 8 8 false Euclidean) [] None ex_json 65536 2 50.
Definition C110_script : list sev :=
  [ SCall (CInsert true 0 (ob1 0)); SCall (CInsert true 1 (ob1 1065353216)); SCall (CInsert true 0 (ob1 1073741824));
    SRestart; SCall (CInsert true 2 (ob1 1077936128)); SCall (CDelete true 1); SCall (CDelete true 77); SCall (CInsert true 0 (ob1 1082130432));
    SCall CClose; SCall (CDelete true 3); SRestart; SCall (CSearch (ob1 1069547520) 3); SCall (CDelete true 1) ].
Definition alive_ids_of (h : list event) : list N := o_id <$> alive h.
Example C110_case : exists h s,
  plain_use C110_C 1 50 h s /\ acked_ids h = [0; 1; 2; 3; 4]%N /\ alive_ids_of h = [0; 2; 3; 4]%N /\ closed s = false /\
  no_nan (cp_h C110_C) (vec_or_nil (ob1 1069547520) :: (vec_or_nil <$> mjoin (acked <$> h))) /\
  h_id <$> match exec (semantic_search C110_C 0 (ob1 1069547520) 3) s with Some (_, Val (_, hs)) => hs | _ => [] end = [2; 0; 3]%N.
Proof.
  destruct (script_witness C110_C C110_script
    (fun h s => forallb (tidy_evb 1) h && fed_firstb false h && bool_decide (hist_inserts h <= 50) &&
       (N.of_nat (sum_list (ev_records (cp_h C110_C) <$> h)) + 1 <? 2 ^ 64)%N &&
       bool_decide (acked_ids h = [0; 1; 2; 3; 4]%N) && bool_decide (alive_ids_of h = [0; 2; 3; 4]%N) && negb (closed s) &&
       nan_free (cp_h C110_C) (vec_or_nil (ob1 1069547520) :: (vec_or_nil <$> mjoin (acked <$> h))) &&
       bool_decide (h_id <$> match exec (semantic_search C110_C 0 (ob1 1069547520) 3) s with Some (_, Val (_, hs)) => hs | _ => [] end = [2; 0; 3]%N)))
    as (h & s & Hh & H).
  { vm_compute. reflexivity. }
  apply andb_true_iff in H as [H H9]. apply andb_true_iff in H as [H H8]. apply andb_true_iff in H as [H H7]. apply andb_true_iff in H as [H H6].
  apply andb_true_iff in H as [H H5]. apply andb_true_iff in H as [H H4]. apply andb_true_iff in H as [H H3]. apply andb_true_iff in H as [H1 H2].
  exists h, s. apply bool_decide_eq_true_1 in H9, H6, H5, H3. apply negb_true_iff in H7. apply N.ltb_lt in H4.
  split; [|split; [exact H5|split; [exact H6|split; [exact H7|split; [by apply no_nan_check|exact H9]]]]]. clear H5 H6 H7 H8 H9.
  split; [|exact Hh|by apply tidy_evb_ok| |exact H4|exact H3].
  - split; [split; cbn; lia|done|clear; cbn; lia|done|by split|apply ex_json_total].
  - intros h1 c r h2 E Hs. by destruct (fed_firstb_ok _ _ H2 h1 c r h2 E Hs).
Qed.
