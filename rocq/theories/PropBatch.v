(** Use with parallel batches: C68, and what it adds to C35. *)
From stdpp Require Import relations sorting.
From Verif Require Import GoBase FloatModel HeapModel ProgModel StateModel WalModel HnswModel StoreModel CollModel CallModel
  ProofBase CodecProofs CodecSpec LogProofs FloatProofs HeapProofs WpProofs HnswProofs IndexProofs StepProofs SeqLog IndexHist SimProofs
  StoreProofs CallProofs HistProofs WalProofs HistRun StoreView PropStore PropColl RestoreProofs ParLog ParHist AlignProofs CollWf BatchProofs PropRestore.
Open Scope nat_scope.
Local Arguments id_key _ : simpl never.
Local Arguments le_put _ _ : simpl never.

(** ** C68 Use with parallel batches neither panics nor deadlocks *)
(** First one-at-a-time calls and restarts ([h1]), then, since the last opening
    of the collection, calls of every kind ([h2]): the workers of its batches run
    in any interleaving, writes to the log may fail.  Vectors have dimension [n];
    a search comes after an acknowledged insert; a vertex has room for one link
    more than an insert makes ([hp_m] < 2 * [hp_mMax]). *)
Record batch_use (C : cparams) (n B : nat) (h1 : list event) (s1 : st) (h2 : list event) (s : st) : Prop := MkBUse {
  bu_use : use_ok C n B;
  bu_m : hp_m (cp_h C) < 2 * hp_mMax (cp_h C);
  bu_h1 : hist C empty_st h1 s1;
  bu_tidy : Forall (tidy_ev C n) h1;
  bu_log : log_small C h1 s1;
  bu_h2 : hist C s1 h2 s;
  bu_calm : Forall (calm_ev C n) h2;
  bu_fed : fed_first (h1 ++ h2)
}.
Theorem C68_batch_use_never_panics : forall C n B h1 s1 h2 s c,
  batch_use C n B h1 s1 h2 s -> hist_inserts (h1 ++ h2) + length (submitted c) <= B ->
  calm C n c -> (is_search c = true -> acked_ids (h1 ++ h2) <> []) ->
  Forall ev_no_pan (h1 ++ h2) /\ (exists s' r, call_run C s c s' r) /\ (forall s' r, call_run C s c s' r -> reply_no_pan r).
Proof.
  intros C n B h1 s1 h2 s c [[HP Hk HB HB64 [Hmax Hdeg] HJ] Hm Hh1 Ht Hl Hh2 Hca Hff] Hn Hc Hse.
  destruct (hist_calm C n B HP Hk HB HB64 Hm Hmax Hdeg HJ h1 s1 h2 s Hh1 Ht Hl Hh2 Hca Hff ltac:(lia)) as (HW & HI & HPI & Hen & Hp & Hcnt & Ha).
  assert (Hse' : is_search c = true -> nodes s <> ∅).
  { intros E. specialize (Hse E). intros E2. destruct (acked_ids (h1 ++ h2)) as [|i l]; [done|]. destruct (Ha i ltac:(by left)) as [v Hv]. by rewrite E2 in Hv. }
  split; [done|]. split.
  - destruct (calm_cases C n c Hc) as [[Hc1 _]|(io & ol & Hb & Hf & Es)].
    + destruct (wf_call C n B true HP (conc_deg C Hm) Hk HB HB64 Hmax Hdeg HJ c s HW Hen ltac:(lia) Hc1 Hse') as (s' & r & Hr & _). by eexists _, _.
    + rewrite Es, fmap_length in Hn. eapply (batch_runs C n B); try done. lia.
  - intros s' r Hr. eapply (calm_run C n B HP Hk HB HB64 Hm Hmax Hdeg HJ c s s' r); try done. lia.
Qed.
Print Assumptions C68_batch_use_never_panics.

(** The workers of an accepted batch: wherever they have got to under whatever
    schedule, they can go on until all have returned, and they cannot go on for
    ever. *)
Theorem C68_batch_finishes : forall C n B h1 s1 h2 s c io ol os,
  batch_use C n B h1 s1 h2 s -> hist_inserts (h1 ++ h2) + length ol <= B ->
  is_batch c io ol -> batch_fed C n ol -> batch_prepare C s (ol.*1) = Val os ->
  (forall s' ts, rtc mstep (batch_start C c os s) (s', ts) -> exists s2 rs, rtc mstep (s', ts) (s2, Done <$> rs) /\ Forall no_pan rs) /\
  ~ exists f : nat -> machine st (list object), f 0 = batch_start C c os s /\ forall i, mstep (f i) (f (S i)).
Proof.
  intros C n B h1 s1 h2 s c io ol os [[HP Hk HB HB64 [Hmax Hdeg] HJ] Hm Hh1 Ht Hl Hh2 Hca Hff] Hn Hb Hf Hp.
  destruct (hist_calm C n B HP Hk HB HB64 Hm Hmax Hdeg HJ h1 s1 h2 s Hh1 Ht Hl Hh2 Hca Hff ltac:(lia)) as (HW & HI & HPI & Hen & _ & Hcnt & Ha).
  assert (Hst : Forall (storable C n false) os) by (apply batch_prepare_val in Hp as (_ & _ & He & _); by eapply loose_storable).
  assert (Hend : forall s' ts, rtc mstep (batch_start C c os s) (s', ts) -> can_finish s' ts /\ forall rs, ts = Done <$> rs -> batch_end C n B false s s' rs).
  { intros s' ts Hr. eapply (batch_start_end C n B HP Hk HB HB64 Hm Hmax Hdeg HJ false c io ol os s s' ts); try done. lia. }
  split.
  - intros s' ts Hr. destruct (can_complete s' ts) as (s2 & rs & Hr2).
    { intros s2 ts2 Hr2. apply Hend. by etrans. }
    exists s2, rs. split; [done|]. destruct (Hend s2 (Done <$> rs)) as [_ He]; [by etrans|]. by destruct (He rs eq_refl).
  - intros (f & _ & Hinf).
    assert (Hacc : forall m : machine st (list object), Acc (flip mstep) m -> forall i, m <> f i).
    { intros m Ha2. induction Ha2 as [m _ IH]. intros i ->. by apply (IH (f (S i)) (Hinf i) (S i)). }
    by apply (Hacc (f 0) (mstep_acc _) 0).
Qed.
Print Assumptions C68_batch_finishes.

(** ** C35 once more *)
(** The record of the properties exists and both records are within the limits
    of the store. *)
Definition encodable (C : cparams) (o : object) : Prop :=
  exists ob, ser_props (cp_json C) (o_props o) = Val ob /\ (N.of_nat (length ob) <= cp_maxval C)%N /\ fits C o.

(** In such use every worker returns all its objects, so nothing is lost: an
    acknowledged batch has stored each object once, under an id of its own, and
    Get returns it. *)
Theorem C35_well_formed_batch_partial : forall C n B h1 s1 h2 s c io ol s' r rs,
  batch_use C n B h1 s1 h2 s -> hist_inserts (h1 ++ h2) + length ol <= B -> 0 < cp_workers C ->
  is_batch c io ol -> batch_fed C n ol -> (forall os, embed_objects C (ol.*1) = Val os -> Forall (encodable C) os) ->
  call_run C s c s' (RBatch r rs) ->
  (forall x, x ∈ rs -> exists l, x = Val l) /\
  (r = Val tt ->
    let os := acked (EvCall c (RBatch (Val tt) rs)) in
    (exists os0, embed_objects C (ol.*1) = Val os0 /\ content <$> os ≡ₚ content <$> os0) /\
    NoDup (o_id <$> os) /\ (forall id, id ∈ o_id <$> os -> id ∉ acked_ids (h1 ++ h2)) /\
    (forall o, o ∈ os -> json_ok (cp_json C) (o_props o) -> exec (CollModel.get C [o_id o]) s' = Some (s', Val [o]))).
Proof.
  intros C n B h1 s1 h2 s c io ol s' r rs [[HP Hk HB HB64 [Hmax Hdeg] HJ] Hm Hh1 Ht Hl Hh2 Hca Hff] Hn Hw Hb Hf He Hr.
  destruct (hist_calm C n B HP Hk HB HB64 Hm Hmax Hdeg HJ h1 s1 h2 s Hh1 Ht Hl Hh2 Hca Hff ltac:(lia)) as (HW & HI & HPI & Hen & _ & Hcnt & Ha).
  assert (Hv : forall x, x ∈ rs -> exists l, x = Val l).
  { intros x Hx. eapply (wf_batch C n B HP Hk HB HB64 Hm Hmax Hdeg HJ true c io ol s s' (RBatch r rs)); try done; [lia|].
    intros os Hos. pose proof (loose_storable C n ol os Hf Hos) as H1. specialize (He os Hos). clear -H1 He.
    induction He as [|o os Ho _ IH]; [constructor|]. apply Forall_cons in H1 as [[H1 _] H2]. constructor; [by split|by apply IH]. }
  split; [done|]. intros -> os. clear He.
  assert (Hh : hist C empty_st (h1 ++ h2) s) by (clear -Hh1 Hh2; induction Hh2; [by rewrite app_nil_r|]; rewrite app_assoc; by econstructor).
  destruct (C35_batch_inserts_all_partial C (h1 ++ h2) s io ol s' rs c Hb Hh ltac:(lia) Hw Hr ltac:(intros p Hp; by destruct (Hv _ Hp))) as ((os0 & He0 & Hperm) & H2 & H3 & H4).
  split; [by exists os0|]. split; [done|]. split; [done|].
  intros o Ho Hj. apply H4; [done|done|done|].
  assert (Hin : content o ∈ content <$> os0) by (rewrite <- Hperm; by apply elem_of_list_fmap_1).
  apply elem_of_list_fmap in Hin as (o0 & E & Hin). destruct Hf as (_ & _ & Hf). specialize (Hf os0 He0). rewrite Forall_forall in Hf.
  destruct (Hf o0 Hin) as [Hfl _]. unfold floats_ok, vec_or_nil in Hfl. assert (o_vec o = o_vec o0) as -> by (by injection E). exact Hfl.
Qed.
Print Assumptions C35_well_formed_batch_partial.

(** ** A case *)
Lemma script2_witness C l1 l2 (P : list event -> st -> list event -> st -> bool) :
  match script_exec C l1 empty_st with
  | Some (h1, s1) => match script_exec C l2 s1 with Some (h2, s) => P h1 s1 h2 s | None => false end
  | None => false
  end = true -> exists h1 s1 h2 s, hist C empty_st h1 s1 /\ hist C s1 h2 s /\ P h1 s1 h2 s = true.
Proof.
  destruct (script_exec C l1 empty_st) as [[h1 s1]|] eqn:E1; [|done]. destruct (script_exec C l2 s1) as [[h2 s]|] eqn:E2; [|done].
  intros H. exists h1, s1, h2, s. by split_and!; [eapply script_hist|eapply script_hist|].
Qed.
Definition batch_fedb (n : nat) (ol : list (object * nat)) : bool :=
  forallb (fun ol => (N.of_nat (snd ol) <? 2 ^ 32)%N && forallb (fun f => (f <? 2 ^ 32)%N) (vec_or_nil (fst ol)) && (length (vec_or_nil (fst ol)) =? n)) ol.
Lemma batch_fedb_ok C n ol : cp_embed C = None -> batch_fedb n ol = true -> batch_fed C n ol.
Proof.
  intros HC H. unfold batch_fedb in H. rewrite forallb_forall in H.
  assert (Hall : forall o l, (o, l) ∈ ol -> level_ok l /\ floats_ok (vec_or_nil o) /\ length (vec_or_nil o) = n).
  { intros o l Hin. apply elem_of_list_In, H in Hin. cbn in Hin. apply andb_true_iff in Hin as [H1 H3]. apply andb_true_iff in H1 as [H1 H2].
    split_and!; [by apply N.ltb_lt| |by apply Nat.eqb_eq]. apply Forall_forall. intros f Hf. rewrite forallb_forall in H2. by apply N.ltb_lt, H2, elem_of_list_In. }
  split_and!.
  - apply Forall_forall. intros l Hl. apply elem_of_list_fmap in Hl as ([o l'] & -> & Hin). by apply (Hall o).
  - intros p. unfold embed_objects. rewrite HC. by destruct (existsb _ _).
  - intros os He. unfold embed_objects in He. rewrite HC in He. destruct (existsb _ _); [done|]. apply Val_inj in He as <-.
    apply Forall_forall. intros o Ho. apply elem_of_list_fmap in Ho as ([o' l] & -> & Hin). by apply (Hall _ l).
Qed.
Definition calmb (n : nat) (c : call) : bool :=
  match c with
  | CInsert io level o => tidyb n (CInsert true level o)
  | CDelete io id => tidyb n (CDelete true id)
  | CBatch _ ol | CBatch2 _ ol => batch_fedb n ol
  | _ => tidyb n c
  end.
Lemma calmb_ok C n c : cp_embed C = None -> calmb n c = true -> calm C n c.
Proof.
  intros HC H. destruct c as [io level o|io ol|io ol|io id|ids|o k| |o| ]; try (by apply batch_fedb_ok).
  - by destruct (tidyb_ok C n (CInsert true level o) HC H) as (_ & H').
  - by destruct (tidyb_ok C n (CDelete true id) HC H) as (_ & H').
  - done.
  - by apply (tidyb_ok C n (CSearch o k)).
  - done.
  - done.
  - done.
Qed.
Definition calm_evb (n : nat) (e : event) : bool := match e with EvCall c _ => calmb n c | _ => false end.

Definition C68_script1 : list sev := [ SCall (CInsert true 0 (ob1 0)); SCall (CInsert true 1 (ob1 1065353216)); SCall (CDelete true 0) ].
Definition C68_script2 : list sev :=
  [ SBatch (CBatch true [(ob1 1073741824, 1); (ob1 1077936128, 0); (ob1 1082130432, 2)]) (replicate 16 0 ++ replicate 17 1 ++ [0;1;0;1;1;0]) 400;
    SCall (CInsert false 0 (ob1 1084227584)); SCall (CSearch (ob1 1069547520) 3);
    SBatch (CBatch2 false [(ob1 1056964608, 0); (ob1 1090519040, 1)]) (replicate 11 1 ++ replicate 13 0) 400; SCall (CDelete false 3) ].
Definition C68_batch : call := CBatch true [(ob1 1092616192, 1); (ob1 1120403456, 0); (ob1 3229614080, 0)].
Definition all_val (rs : list (out (list object))) : bool := forallb (fun r => match r with Val _ => true | _ => false end) rs.
Example C68_case : exists h1 s1 h2 s s' rs,
  batch_use C11_C 1 50 h1 s1 h2 s /\ hist_inserts (h1 ++ h2) = 8 /\ length (acked_ids (h1 ++ h2)) = 5 /\ closed s = false /\ size (nodes s) = 8 /\
  calm C11_C 1 C68_batch /\ (forall os, embed_objects C11_C (submitted C68_batch) = Val os -> Forall (encodable C11_C) os) /\
  call_run C11_C s C68_batch s' (RBatch (Val tt) rs) /\ length (mjoin (out_list <$> rs)) = 3.
Proof.
  destruct (script2_witness C11_C C68_script1 C68_script2 (fun h1 s1 h2 s =>
      (forallb (tidy_evb 1) h1 && fed_firstb false h1 && (forallb quietb h1 && forallb no_restartb h1 && (N.of_nat (hist_inserts h1) <? 2 ^ 64)%N && (N.of_nat (length (log_view s1)) + 1 <? 2 ^ 64)%N)) &&
      forallb (calm_evb 1) h2 && fed_firstb false (h1 ++ h2) && bool_decide (hist_inserts (h1 ++ h2) = 8) && bool_decide (length (acked_ids (h1 ++ h2)) = 5) && negb (closed s) && bool_decide (size (nodes s) = 8) &&
      match call_exec C11_C C68_batch (replicate 20 1 ++ replicate 15 0) 400 s with
      | Some (s', RBatch (Val tt) rs) => bool_decide (length (mjoin (out_list <$> rs)) = 3)
      | _ => false
      end)) as (h1 & s1 & h2 & s & Hh1 & Hh2 & H).
  { vm_compute. reflexivity. }
  apply andb_true_iff in H as [H H8]. apply andb_true_iff in H as [H H7]. apply andb_true_iff in H as [H H6]. apply andb_true_iff in H as [H H5].
  apply andb_true_iff in H as [H H4]. apply andb_true_iff in H as [H H3]. apply andb_true_iff in H as [H H2].
  destruct (tidy_check C11_C 1 h1 s1 eq_refl Hh1 H) as (T1 & T2 & T3).
  destruct (call_exec C11_C C68_batch _ 400 s) as [[s' r]|] eqn:E; [|done]. destruct r as [|[[]| |] rs| | | | ]; try done.
  apply bool_decide_eq_true_1 in H8, H7, H5, H4. apply negb_true_iff in H6. apply call_exec_run in E.
  exists h1, s1, h2, s, s', rs. split.
  { split; [apply C11_use|cbn; lia|done|done|done|done| |].
    - apply Forall_forall. intros e He. rewrite forallb_forall in H2. apply elem_of_list_In, H2 in He. destruct e; [by apply calmb_ok|done..].
    - intros ha c r hb Eh Hs. by destruct (fed_firstb_ok _ _ H3 ha c r hb Eh Hs). }
  split; [done|]. split; [done|]. split; [done|]. split; [done|]. split; [by apply calmb_ok|]. split; [|by split].
  intros os He. assert (os = submitted C68_batch) as -> by (by injection He). repeat constructor; (eexists; split; [reflexivity|by split]).
Qed.
