(** Any number of goroutines use one collection as its callers should: nothing
    panics, nothing blocks for ever (C106). *)
From stdpp Require Import relations.
From Verif Require Import GoBase FloatModel HeapModel ProgModel StateModel WalModel HnswModel StoreModel CollModel CallModel LinModel EarlyModel
  ProofBase CodecProofs CodecSpec LogProofs FloatProofs HeapProofs WpProofs HnswProofs IndexProofs StepProofs SeqLog IndexHist SimProofs
  StoreProofs CallProofs HistProofs WalProofs HistRun StoreView PropStore PropColl RestoreProofs ParLog ParHist AlignProofs CollWf BatchProofs PropRestore PropBatch
  LinProofs LinTrace LinRun LinSafe EarlyTrace.
Open Scope nat_scope.
Local Arguments id_key _ : simpl never.
Local Arguments le_put _ _ : simpl never.

(** ** C106 Concurrent use neither panics nor deadlocks *)
(** The collection has a past as in C68 ([batch_use]): one-at-a-time calls and
    restarts, then calls of every kind.  Now [k] goroutines call it, in any
    interleaving of the steps of LinModel: c.mu, the mutexes of the vertices,
    the workers of the batches.  [calls_ok]: vectors have dimension [n], and a
    search is called once objects have been acknowledged. *)
Record concurrent_use (C : cparams) (n B : nat) (h1 : list event) (s1 : st) (h2 : list event) (s : st) (k : nat) (vs : list vis) (m : st * list client) : Prop := MkCUse {
  cu_past : batch_use C n B h1 s1 h2 s;
  cu_run : con_run C (s, replicate k TIdle) vs m;
  cu_calls : calls_ok C n (acked_ids (h1 ++ h2) <> []) vs;
  cu_room : hist_inserts (h1 ++ h2) + asked vs <= B
}.

Lemma use_good C n B h1 s1 h2 s k :
  batch_use C n B h1 s1 h2 s -> hist_inserts (h1 ++ h2) <= B ->
  good C n B (acked_ids (h1 ++ h2) <> []) (hist_inserts (h1 ++ h2)) [] s (replicate k AIdle).
Proof.
  intros [[HP Hk HB HB64 [Hmax Hdeg] HJ] Hm Hh1 Ht Hl Hh2 Hca Hff] Hn.
  destruct (hist_calm C n B HP Hk HB HB64 Hm Hmax Hdeg HJ h1 s1 h2 s Hh1 Ht Hl Hh2 Hca Hff Hn) as (HW & HI & HPI & Hen & Hp & Hcnt & Ha).
  split; try done.
  - assert (pending (replicate k AIdle) = []) as -> by (by induction k). cbn. lia.
  - intros i c [? _]%lookup_replicate. done.
  - intros i r [? _]%lookup_replicate. done.
  - intros i r Hi. by apply elem_of_nil in Hi.
  - intros Hne E2. destruct (acked_ids (h1 ++ h2)) as [|i l]; [done|]. destruct (Ha i ltac:(by left)) as [v Hv]. by rewrite E2 in Hv.
Qed.
Lemma use_inv C n B h1 s1 h2 s k vs m : concurrent_use C n B h1 s1 h2 s k vs m ->
  exists sa as', rel C m.1 m.2 sa as' /\ good C n B (acked_ids (h1 ++ h2) <> []) (hist_inserts (h1 ++ h2)) vs sa as'.
Proof.
  intros [HU Hr Hok Hn]. pose proof (use_good C n B h1 s1 h2 s k HU ltac:(lia)) as HG. destruct HU as [[HP Hk HB HB64 [Hmax Hdeg] HJ] Hm Hh1 Ht Hl Hh2 Hca Hff].
  by eapply (safe_run C n B HP Hk HB HB64 Hm Hmax Hdeg HJ).
Qed.

(** No call, and no worker of a batch, returns by a panic. *)
Theorem C106_concurrent_use_never_panics : forall C n B h1 s1 h2 s k vs m i r,
  concurrent_use C n B h1 s1 h2 s k vs m -> VRet i r ∈ vs -> reply_no_pan r.
Proof. intros C n B h1 s1 h2 s k vs m i r HU Hi. destruct (use_inv _ _ _ _ _ _ _ _ _ _ HU) as (sa & as' & _ & HG). by apply (g_ret _ _ _ _ _ _ _ _ HG i r). Qed.
Print Assumptions C106_concurrent_use_never_panics.

(** Wherever the goroutines have got to: as long as one of them is in a call,
    one of those can take a step, also when waiting writers keep new readers
    out ([polite_step]); and they cannot go on for ever without making new
    calls. *)
Theorem C106_no_deadlock : forall C n B h1 s1 h2 s k vs m,
  concurrent_use C n B h1 s1 h2 s k vs m ->
  (at_rest m.2 \/ exists m', polite_step C m m') /\
  ~ exists f : nat -> st * list client, f 0 = m /\ forall i, busy_step C (f i) (f (S i)).
Proof.
  intros C n B h1 s1 h2 s k vs m HU. destruct (use_inv _ _ _ _ _ _ _ _ _ _ HU) as (sa & as' & HR & HG).
  destruct HU as [[[HP Hk HB HB64 [Hmax Hdeg] HJ] Hm Hh1 Ht Hl Hh2 Hca Hff] Hr Hok Hn]. split.
  - destruct m as [s' ts]. by eapply (somebody_moves C n B HP Hk HB HB64 Hm Hmax Hdeg HJ).
  - intros (f & _ & Hinf).
    assert (Hacc : forall x, Acc (flip (busy_step C)) x -> forall i, x <> f i).
    { intros x Ha2. induction Ha2 as [x _ IH]. intros i ->. by apply (IH (f (S i)) (Hinf i) (S i)). }
    by apply (Hacc (f 0) (busy_acc _ _) 0).
Qed.
Print Assumptions C106_no_deadlock.

Lemma busy_run C m m' : rtc (busy_step C) m m' -> exists vs, con_run C m vs m' /\ called vs = [].
Proof.
  induction 1 as [m|m m1 m2 (v1 & Hs & Hc) _ (v2 & Hr & Hc2)]; [exists []; by split; [constructor|]|].
  exists (v1 ++ v2). split; [eapply con_run_app; [|exact Hr]; rewrite <- (app_nil_l v1); eapply ConSnoc; [constructor|done]|].
  unfold called in *. by rewrite omap_app, Hc, Hc2.
Qed.
Lemma no_calls vs vs' i c vs1 vs2 : called vs' = [] -> vs ++ vs' = vs1 ++ VCall i c :: vs2 -> exists w, vs = vs1 ++ VCall i c :: w.
Proof.
  intros Hc E. apply app_eq_inv in E as [(l & -> & E2)|(l & -> & E2)].
  - destruct l as [|x l]; cbn in E2.
    + subst vs'. done.
    + injection E2 as <- _. by exists l.
  - subst vs'. unfold called in Hc. rewrite omap_app in Hc. apply app_eq_nil in Hc as [_ Hc]. done.
Qed.
Lemma use_more C n B h1 s1 h2 s k vs m m' : concurrent_use C n B h1 s1 h2 s k vs m -> rtc (busy_step C) m m' ->
  exists vs', called vs' = [] /\ con_run C m vs' m' /\ concurrent_use C n B h1 s1 h2 s k (vs ++ vs') m'.
Proof.
  intros [HU Hr Hok Hn] (vs' & Hr' & Hc)%busy_run. exists vs'. split; [done|]. split; [done|]. split; [done|by eapply con_run_app| |].
  - intros v1 i c v2 E. destruct (no_calls _ _ _ _ _ _ Hc E) as [w Ew]. by apply (Hok v1 i c w).
  - rewrite asked_app. unfold asked at 2. rewrite Hc. cbn. lia.
Qed.

(** So from everywhere all the calls that have been made can be brought to
    their end. *)
Theorem C106_every_call_can_return : forall C n B h1 s1 h2 s k vs m,
  concurrent_use C n B h1 s1 h2 s k vs m ->
  exists vs' m', con_run C m vs' m' /\ called vs' = [] /\ at_rest m'.2 /\ (forall i r, VRet i r ∈ vs' -> reply_no_pan r) /\
    rtc (polite_step C) m m'.
Proof.
  intros C n B h1 s1 h2 s k vs m HU.
  assert (exists m', rtc (polite_step C) m m' /\ at_rest m'.2) as (m' & Hp & Hrest).
  { revert HU. generalize vs. clear vs. induction (busy_acc C m) as [m _ IH]. intros vs HU.
    destruct (C106_no_deadlock _ _ _ _ _ _ _ _ _ _ HU) as [[Hrest|[m1 Hs]] _]; [by exists m|].
    destruct (use_more _ _ _ _ _ _ _ _ _ _ m1 HU ltac:(by apply rtc_once, Hs)) as (vs' & _ & _ & HU1).
    destruct (IH m1 (proj1 Hs) _ HU1) as (m' & Hr & Hrest). exists m'. split; [by eapply rtc_l|done]. }
  assert (Hr : rtc (busy_step C) m m') by (clear -Hp; induction Hp as [|x y z [Hs _] _ IH]; [done|by eapply rtc_l]).
  destruct (use_more _ _ _ _ _ _ _ _ _ _ m' HU Hr) as (vs' & Hc & Hcr & HU'). exists vs', m'. split_and!; [done|done|done| |done].
  intros i r Hi. eapply C106_concurrent_use_never_panics; [exact HU'|]. apply elem_of_app. by right.
Qed.
Print Assumptions C106_every_call_can_return.

(** ** Nothing is left behind *)
(** LinModel lets a batch wait for all its workers; EarlyModel lets it return
    when a worker has failed or its context is cancelled.  If the objects of
    the batches can be stored, no worker fails: then the two models have the
    same runs until somebody cancels a batch. *)
Definition batch_stores (C : cparams) (c : call) : Prop :=
  match c with
  | CBatch _ ol | CBatch2 _ ol => forall os, embed_objects C (ol.*1) = Val os -> Forall (encodable C) os
  | _ => True
  end.
Definition cancelled (t : client) : Prop :=
  exists rs, t = TRet (RBatch (Err ECanceled) rs) \/ exists c, t = TX c (XEnd (RBatch (Err ECanceled) rs)).

Definition its_call (t : client) : option call :=
  match t with
  | TCall c | TX c _ | TR c _ => Some c
  | TLook io id _ | TWait io id => Some (CDelete io id)
  | _ => None
  end.
Lemma con_called C s k vs m i t c : con_run C (s, replicate k TIdle) vs m -> m.2 !! i = Some t -> its_call t = Some c -> VCall i c ∈ vs.
Proof.
  remember (s, replicate k TIdle) as m0 eqn:Em. intros Hr. revert i t c. induction Hr as [m|m v1 m1 v2 m2 Hr IH Hs]; subst; intros i t c Hi Hc.
  { cbn in Hi. apply lookup_replicate in Hi as [-> _]. done. }
  specialize (IH eq_refl). inversion Hs as [s0 ts0 j u vs0 s0' u' Hj Hst]; subst. cbn [fst snd] in *. apply elem_of_app.
  destruct (decide (i = j)) as [->|Hne]; [|left; rewrite list_lookup_insert_ne in Hi by done; by eapply IH].
  rewrite list_lookup_insert in Hi by (by eapply lookup_lt_Some). injection Hi as ->.
  inversion Hst; subst; cbn in Hc; try discriminate Hc; injection Hc as <-; first [right; by left|left; by eapply IH].
Qed.

(** A worker of a batch that is going on has not failed. *)
Lemma no_failed_worker C n B h1 s1 h2 s k vs s' ts i c two io ws e :
  concurrent_use C n B h1 s1 h2 s k vs (s', ts) -> (forall j c, VCall j c ∈ vs -> batch_stores C c) ->
  ts !! i = Some (TX c (XWork two io ws)) -> Done (Err e) ∉ ws.
Proof.
  intros HU Hst Hi Hin. destruct (use_inv _ _ _ _ _ _ _ _ _ _ HU) as (sa & as' & HR & HG). cbn [fst snd] in *.
  assert (Hcall : batch_stores C c) by (apply (Hst i); eapply con_called; [apply HU|exact Hi|done]).
  destruct HU as [[[HP Hk HB HB64 [Hmax Hdeg] HJ] Hm Hh1 Ht Hl Hh2 Hca Hff] Hr Hok Hn].
  destruct (rel_at _ _ _ _ _ _ _ HR Hi) as (a & Ha & Hx). cbn [threl early] in Hx.
  destruct Hx as (-> & (ol & os & Hp & _ & Hx) & _).
  pose proof (good_room C n B _ _ _ _ _ _ _ HG Hn Ha) as Hroom. destruct (g_pend _ _ _ _ _ _ _ _ HG _ _ Ha) as [Hc _].
  assert (Hb : is_batch c io ol /\ rtc mstep (batch_start C c os sa) (s', ws) /\ batch_fed C n ol /\ length (submitted c) = length ol /\
    (forall os, embed_objects C (ol.*1) = Val os -> Forall (encodable C) os)).
  { destruct two; destruct Hx as [-> Hx]; (split_and!; [by (left + right)|done|done|by cbn; rewrite fmap_length|done]). }
  destruct Hb as (Hb & Hrun & Hf & Hlen & Henc). rewrite Hlen in Hroom.
  assert (Hsto : Forall (storable C n true) os).
  { pose proof (batch_prepare_val _ _ _ _ Hp) as (_ & _ & He & _). pose proof (loose_storable C n ol os Hf He) as H1. specialize (Henc os He). clear -H1 Henc.
    induction Henc as [|o os Ho _ IH]; [constructor|]. apply Forall_cons in H1 as [[H1 _] H2]. constructor; [by split|by apply IH]. }
  assert (Hend : forall s2 ts2, rtc mstep (batch_start C c os sa) (s2, ts2) -> can_finish s2 ts2 /\ forall rs, ts2 = Done <$> rs -> batch_end C n B true sa s2 rs).
  { intros s2 ts2 H2. eapply (batch_start_end C n B HP Hk HB HB64 Hm Hmax Hdeg HJ true c io ol os sa s2 ts2); try done; apply HG. }
  destruct (can_complete s' ws) as (s2 & rs & Hr2).
  { intros s2 ts2 H2. apply Hend. by etrans. }
  destruct (Hend s2 (Done <$> rs)) as [_ He]; [by etrans|].
  assert (Err e ∈ rs) as Herr.
  { clear -Hin Hr2. apply elem_of_list_lookup in Hin as (j & Hj).
    assert (Hk : forall m m' : machine st (list object), rtc mstep m m' -> m.2 !! j = Some (Done (Err e)) -> m'.2 !! j = Some (Done (Err e))).
    { induction 1 as [|m m1 m2 Hs _ IH]; [done|]. intros Hj1. apply IH. inversion Hs as [s0 ts0 i f s1 p' Hi Hf]; subst. cbn in *.
      destruct (decide (i = j)) as [->|Hne]; [congruence|]. by rewrite list_lookup_insert_ne. }
    apply Hk in Hr2; [|done]. cbn in Hr2. rewrite list_lookup_fmap in Hr2. destruct (rs !! j) as [r|] eqn:E; [|done]. cbn in Hr2. injection Hr2 as ->.
    by eapply elem_of_list_lookup_2. }
  destruct (be_val _ _ _ _ _ _ _ (He rs eq_refl) eq_refl _ Herr) as [l Hl2]. done.
Qed.

Theorem C106_nothing_left_behind : forall C n B h1 s1 h2 s k vs s' ts' gs',
  batch_use C n B h1 s1 h2 s -> erun C (s, replicate k TIdle, []) vs (s', ts', gs') ->
  calls_ok C n (acked_ids (h1 ++ h2) <> []) vs -> hist_inserts (h1 ++ h2) + asked vs <= B ->
  (forall i c, VCall i c ∈ vs -> batch_stores C c) ->
  (forall i rs, VRet i (RBatch (Err ECanceled) rs) ∉ vs) -> Forall (fun t => ~ cancelled t) ts' ->
  gs' = [] /\ concurrent_use C n B h1 s1 h2 s k vs (s', ts').
Proof.
  intros C n B h1 s1 h2 s k vs s' ts' gs' HU Hr. remember (s, replicate k TIdle, []) as m eqn:Em. remember (s', ts', gs') as m' eqn:Em'.
  revert s' ts' gs' Em'. induction Hr as [m|m v1 [[s2 ts1] gs1] v2 m2 Hr IH Hs]; intros s' ts' gs' -> Hok Hn Hst Hv Hb.
  - injection Em as -> -> ->. split; [done|]. split; [done|constructor|done|done].
  - assert (Hok1 : calls_ok C n (acked_ids (h1 ++ h2) <> []) v1) by (by eapply calls_ok_app).
    assert (Hn1 : hist_inserts (h1 ++ h2) + asked v1 <= B) by (rewrite asked_app in Hn; lia).
    assert (Hst1 : forall i c, VCall i c ∈ v1 -> batch_stores C c) by (intros i c Hi; apply (Hst i c); set_solver).
    assert (Hv1 : forall i rs, VRet i (RBatch (Err ECanceled) rs) ∉ v1) by (intros i rs Hin; apply (Hv i rs); set_solver).
    inversion Hs as [? ? ? ? ? ? Hc|? ? ? j ids' Hk Hf' Hg|? ? ? j o' n' Hk Hf' Hg|? ? ? j c two io ws e Hk He'|? ? ? j q ws s3 ws' Hj' Hm']; subst.
    + assert (Hb1 : Forall (fun t => ~ cancelled t) ts1).
      { inversion Hc as [? ? l u ? ? u' Hk Hcl]; subst. apply Forall_lookup. intros j t Hj. destruct (decide (j = l)) as [->|Hne].
        - rewrite Hk in Hj. injection Hj as ->. pose proof (Forall_lookup_1 _ _ _ _ Hb (list_lookup_insert _ _ u' (lookup_lt_Some _ _ _ Hk))) as Hu'.
          intros (rs & [->|(c & ->)]).
          + inversion Hcl; subst. apply (Hv l rs). set_solver.
          + inversion Hcl as [| |? ? ? ? ? ? ? Hx|? ? ? ? ? ? Hx| | | | | | | | | | | | | ]; subst; [by inversion Hx|]. cbn in Hx. injection Hx as <-. apply Hu'. eexists _. by left.
        - apply (Forall_lookup_1 _ _ j t Hb). by rewrite list_lookup_insert_ne. }
      destruct (IH eq_refl _ _ _ eq_refl Hok1 Hn1 Hst1 Hv1 Hb1) as [-> [_ Hcr _ _]]. split; [done|]. split; [done|by eapply ConSnoc|done|done].
    + exfalso. assert (Hb1 : Forall (fun t => ~ cancelled t) ts1).
      { apply Forall_lookup. intros l t Hl. destruct (decide (l = j)) as [->|Hne].
        - rewrite Hk in Hl. injection Hl as <-. intros (? & [?|(? & ?)]); done.
        - apply (Forall_lookup_1 _ _ l t Hb). by rewrite list_lookup_insert_ne. }
      by destruct (IH eq_refl _ _ _ eq_refl Hok1 Hn1 Hst1 Hv1 Hb1) as [-> _].
    + exfalso. assert (Hb1 : Forall (fun t => ~ cancelled t) ts1).
      { apply Forall_lookup. intros l t Hl. destruct (decide (l = j)) as [->|Hne].
        - rewrite Hk in Hl. injection Hl as <-. intros (? & [?|(? & ?)]); done.
        - apply (Forall_lookup_1 _ _ l t Hb). by rewrite list_lookup_insert_ne. }
      by destruct (IH eq_refl _ _ _ eq_refl Hok1 Hn1 Hst1 Hv1 Hb1) as [-> _].
    + exfalso. assert (Hb1 : Forall (fun t => ~ cancelled t) ts1).
      { apply Forall_lookup. intros l t Hl. destruct (decide (l = j)) as [->|Hne].
        - rewrite Hk in Hl. injection Hl as <-. intros (? & [?|(? & ?)]); done.
        - apply (Forall_lookup_1 _ _ l t Hb). by rewrite list_lookup_insert_ne. }
      destruct (IH eq_refl _ _ _ eq_refl Hok1 Hn1 Hst1 Hv1 Hb1) as [-> HC]. destruct He' as [->|He'].
      * refine (Forall_lookup_1 _ _ j _ Hb (list_lookup_insert _ _ _ (lookup_lt_Some _ _ _ Hk)) _). eexists _. right. by eexists.
      * by eapply no_failed_worker.
    + destruct (IH eq_refl _ _ _ eq_refl Hok1 Hn1 Hst1 Hv1 Hb) as [-> _]. done.
Qed.
Print Assumptions C106_nothing_left_behind.

(** ** A case *)
Fixpoint calls_okb (n : nat) (fed : bool) (vs : list vis) : bool :=
  match vs with
  | [] => true
  | VCall _ c :: l => calmb n c && (negb (is_search c) || fed) && calls_okb n fed l
  | VRet _ r :: l => calls_okb n (fed || negb (bool_decide (reply_objects r = []))) l
  end.
Lemma calls_okb_ok C n fed vs : cp_embed C = None -> calls_okb n false vs = true -> calls_ok C n fed vs.
Proof.
  intros HC. unfold calls_ok.
  cut (forall pre fb, (fb = true -> exists j r, VRet j r ∈ pre /\ reply_objects r <> []) -> calls_okb n fb vs = true -> forall vs1 i c vs2, vs = vs1 ++ VCall i c :: vs2 ->
    calm C n c /\ (is_search c = true -> exists j r, VRet j r ∈ pre ++ vs1 /\ reply_objects r <> [])).
  { intros H Hb vs1 i c vs2 E. destruct (H [] false ltac:(done) Hb vs1 i c vs2 E) as [H1 H2]. split; [done|]. intros Hs. right. by apply H2. }
  induction vs as [|v vs IH]; intros pre fb Hf Hb vs1 i c vs2 E; [by destruct vs1|]. destruct v as [j c0|j r0]; cbn in Hb.
  - apply andb_true_iff in Hb as [Hb H3]. apply andb_true_iff in Hb as [H1 H2]. destruct vs1 as [|w vs1]; injection E as E1 E2.
    + subst c0. split; [by apply calmb_ok|]. intros Hs. rewrite Hs in H2. cbn in H2. destruct (Hf H2) as (j' & r & Hj & Hr). exists j', r. split; [|done]. by rewrite app_nil_r.
    + subst w. destruct (IH (pre ++ [VCall j c0]) fb) with (vs1 := vs1) (i := i) (c := c) (vs2 := vs2) as [H4 H5]; [|done|done|].
      * intros Hfb. destruct (Hf Hfb) as (j' & r & Hj & Hr). exists j', r. split; [|done]. apply elem_of_app. by left.
      * split; [done|]. intros Hs. destruct (H5 Hs) as (j' & r & Hj & Hr). exists j', r. split; [|done]. by rewrite <- app_assoc in Hj.
  - destruct vs1 as [|w vs1]; [done|]. injection E as <- E2.
    destruct (IH (pre ++ [VRet j r0]) (fb || negb (bool_decide (reply_objects r0 = [])))) with (vs1 := vs1) (i := i) (c := c) (vs2 := vs2) as [H4 H5]; [|done|done|].
    + intros [Hfb|Hr]%orb_true_iff.
      * destruct (Hf Hfb) as (j' & r & Hj & Hr). exists j', r. split; [|done]. apply elem_of_app. by left.
      * exists j, r0. split; [apply elem_of_app; right; by left|]. by apply negb_true_iff, bool_decide_eq_false_1 in Hr.
    + split; [done|]. intros Hs. destruct (H5 Hs) as (j' & r & Hj & Hr). exists j', r. split; [|done]. by rewrite <- app_assoc in Hj.
Qed.
Lemma C106_past : batch_use C11_C 1 50 [] empty_st [] empty_st.
Proof.
  destruct (tidy_check C11_C 1 [] empty_st eq_refl ltac:(constructor)) as (T1 & T2 & T3); [by vm_compute|].
  split; [apply C11_use|cbn; lia|constructor|done|done|constructor|constructor|done].
Qed.
(** An insert is over; then one goroutine is in the middle of a batch, one
    waits to search, one has looked an object up and waits to delete it. *)
Definition C106_calls : list (nat * nat * call * nat) :=
  [(200, 0, CInsert true 1 (ob1 1065353216), 0); (20, 1, C68_batch, 1); (3, 2, CSearch (ob1 1069547520) 2, 0); (3, 3, CDelete true 0, 0)].
Definition C106_state (ts : list client) : bool :=
  match ts with [TIdle; TX _ (XWork _ _ [Step _; Step _]); TCall (CSearch _ _); TWait _ _] => true | _ => false end.
Example C106_case : exists vs m, concurrent_use C11_C 1 50 [] empty_st [] empty_st 4 vs m /\ C106_state m.2 = true /\
  called vs = [CInsert true 1 (ob1 1065353216); C68_batch; CSearch (ob1 1069547520) 2; CDelete true 0] /\
  (forall i c, VCall i c ∈ vs -> batch_stores C11_C c) /\ (forall i rs, VRet i (RBatch (Err ECanceled) rs) ∉ vs) /\ Forall (fun t => ~ cancelled t) m.2.
Proof.
  assert (option_map (fun x => (x.1, C106_state x.2.2)) (con_exec C11_C C106_calls (empty_st, replicate 4 TIdle)) =
    Some ([VCall 0 (CInsert true 1 (ob1 1065353216)); VRet 0 (RIns (Val (ob1 1065353216))); VCall 1 C68_batch; VCall 2 (CSearch (ob1 1069547520) 2); VCall 3 (CDelete true 0)], true)) as H.
  { vm_compute. reflexivity. }
  destruct (con_exec C11_C C106_calls _) as [[vs m]|] eqn:Hm; [|discriminate H]. apply (inj Some) in H. cbn [fst snd] in H. apply pair_equal_spec in H as [-> Hst].
  apply con_exec_run in Hm. eexists _, m. split; [|split; [exact Hst|]].
  - split; [apply C106_past|exact Hm| |].
    + apply calls_okb_ok; [done|]. vm_compute. reflexivity.
    + vm_compute. lia.
  - split_and!.
    + done.
    + intros i c Hi. repeat (apply elem_of_cons in Hi as [Hi|Hi]; [first [discriminate Hi|injection Hi as -> ->; first [exact I|idtac]]|]); [|by apply elem_of_nil in Hi].
      intros os He. assert (os = submitted C68_batch) as -> by (by injection He). repeat constructor; (eexists; split; [reflexivity|by split]).
    + intros i rs Hi. repeat (apply elem_of_cons in Hi as [Hi|Hi]; [discriminate Hi|]). by apply elem_of_nil in Hi.
    + unfold C106_state in Hst. repeat case_match; try discriminate Hst. clear. repeat constructor; by intros (? & [?|(? & ?)]).
Qed.
