(** C90: how much of the index log a call may write. *)
From stdpp Require Import relations.
From Verif Require Import GoBase FloatModel HeapModel ProgModel StateModel WalModel HnswModel StoreModel CollModel CallModel
  ProofBase WalProofs CallProofs HistRun LogGrowth PropRestore.
Open Scope nat_scope.

(** ** C90 A call writes a bounded number of log records *)
(** The most records one call may write: the levels its vertices draw and M
    decide, not the size of the index. *)
Definition call_records (P : hparams) (c : call) : nat :=
  match c with
  | CInsert _ level _ => 1 + (level + 1) * (hp_m P + 1)
  | CBatch _ ol | CBatch2 _ ol => sum_list ((fun level => 1 + (level + 1) * (hp_m P + 1)) <$> ol.*2)
  | CDelete _ _ => 1
  | CGet _ | CSearch _ _ | CSize | CUpdate _ | CClose => 0
  end.
Definition ev_records (P : hparams) (e : event) : nat :=
  match e with EvCall c _ | EvCrash c _ => call_records P c | EvRestart => 0 end.
Definition log_bytes (l : list bytes) : nat := sum_list (length <$> l).

Lemma zeros n : sum_list (replicate n 0) = 0.
Proof. by induction n. Qed.
Section growth.
  Context (C : cparams) (w : bytes -> nat) (u : nat) (Hw : forall r, length r <= rec_max (cp_h C) -> w r <= u).
  Local Notation P := (cp_h C).
  Lemma costs_app l1 l2 : costs P (l1 ++ l2) = costs P l1 + costs P l2.
  Proof. unfold costs. induction l1 as [|x l1 IH]; [done|]. cbn in *. lia. Qed.
  Lemma costs_zip {A} (os : list A) ls : costs P (snd <$> zip os ls) <= costs P ls.
  Proof.
    revert ls. induction os as [|o os IH]; intros [|l ls]; try (cbn; lia).
    change (costs P (snd <$> zip (o :: os) (l :: ls))) with (insert_cost P l + costs P (snd <$> zip os ls)).
    change (costs P (l :: ls)) with (insert_cost P l + costs P ls). specialize (IH ls). lia.
  Qed.
  Lemma costs_join {A} (ls : list (list (A * nat))) : sum_list ((fun l => u * costs P (snd <$> l)) <$> ls) = u * costs P (snd <$> mjoin ls).
  Proof.
    induction ls as [|l ls IH]; [cbn; lia|]. change (mjoin (l :: ls)) with (l ++ mjoin ls). rewrite fmap_app, costs_app.
    change (sum_list ((fun l => u * costs P (snd <$> l)) <$> l :: ls)) with (u * costs P (snd <$> l) + sum_list ((fun l => u * costs P (snd <$> l)) <$> ls)).
    rewrite IH. lia.
  Qed.
  Lemma lb_weak {A} ch (p : prog st A) n m : lb P w u ch p n (at_least m A) -> lb P w u ch p n (fun _ _ => True).
  Proof. intros H. eapply lb_mono; [|exact H]. done. Qed.
  Lemma batch_grow os s s' ts' : rtc mstep (s, batch_threads C os) (s', ts') -> wsum w (log_view s') <= wsum w (log_view s) + u * costs P (snd <$> os).
  Proof.
    intros Hr. pose (ns := (fun i => u * costs P (snd <$> chunk (cp_workers C) i os)) <$> seq 0 (cp_workers C)).
    pose proof (lb_machine C w u false (batch_threads C os) ns s s' ts') as H. cbn [pot] in H. unfold pot in H. rewrite !Nat.add_0_r in H.
    etrans; [apply H; [|done]|].
    - unfold ns, batch_threads. apply Forall2_fmap, Forall_Forall2_diag, Forall_forall. intros i _.
      eapply lb_weak. rewrite <- (Nat.add_0_r (u * _)). by apply lb_worker.
    - apply Nat.add_le_mono_l. unfold ns. destruct (decide (0 < cp_workers C)) as [Hc|Hc].
      + rewrite <- (list_fmap_compose (fun i => chunk (cp_workers C) i os) (fun l => u * costs P (snd <$> l))) || idtac.
        etrans; [|apply Nat.eq_le_incl; rewrite <- (chunk_join _ os Hc) at 1; reflexivity].
        rewrite <- costs_join, <- list_fmap_compose. done.
      + replace (cp_workers C) with 0 by lia. cbn. lia.
  Qed.
  Lemma batch2_grow os s s' ts' : rtc mstep (set_chan os s, batch2_threads C os) (s', ts') ->
    wsum w (log_view s') <= wsum w (log_view s) + u * costs P (snd <$> os).
  Proof.
    intros Hr. pose proof (lb_machine C w u true (batch2_threads C os) (replicate (cp_workers C) 0) (set_chan os s) s' ts') as H.
    assert (Hz : sum_list (replicate (cp_workers C) 0) = 0) by apply zeros. rewrite Hz in H.
    unfold pot in H. cbn [chan set_chan] in H. change (log_view (set_chan os s)) with (log_view s) in H.
    assert (HF : Forall2 (fun p n => lb P w u true p n (fun _ _ => True)) (batch2_threads C os) (replicate (cp_workers C) 0)).
    { assert (Hlen : length (batch2_threads C os) = cp_workers C) by (unfold batch2_threads; by rewrite fmap_length, seq_length).
      rewrite <- Hlen. apply Forall2_replicate_r; [done|]. unfold batch2_threads. apply Forall_fmap, Forall_forall. intros i _. cbn.
      eapply lb_weak. by apply lb_worker2. }
    specialize (H HF Hr). lia.
  Qed.
  Lemma exec_grow {A} (p : prog st A) n s s' r : lb P w u false p n (fun _ _ => True) -> exec p s = Some (s', r) ->
    wsum w (log_view s') <= wsum w (log_view s) + n.
  Proof. intros H Hx. pose proof (lb_exec C w u false p n s s' r H Hx) as Hl. unfold pot in Hl. lia. Qed.
  Lemma single_grow {A} (p : prog st A) n s s' ts : lb P w u false p n (fun _ _ => True) -> rtc mstep (s, [p]) (s', ts) ->
    wsum w (log_view s') <= wsum w (log_view s) + n.
  Proof.
    intros H Hx. pose proof (lb_machine C w u false [p] [n] s s' ts) as Hl. unfold pot in Hl. cbn [sum_list sum_list_with foldr] in Hl.
    specialize (Hl ltac:(by repeat constructor) Hx). cbn in Hl. lia.
  Qed.
  Lemma flush_grow io s : wsum w (log_view (fst (wal_flush io s))) = wsum w (log_view s).
  Proof. pose proof (pot_flush P w u false io s) as H. unfold pot in H. lia. Qed.
  Lemma run_grow s c s' r : call_run C s c s' r -> wsum w (log_view s') <= wsum w (log_view s) + u * call_records P c.
  Proof.
    intros Hr. destruct Hr as [io level o s' r H|io ol r H _|io ol os s' r rs H Hb|io ol r H _|io ol os s' r rs H Hb|io id f s' r _ H|ids s' r H|o k s' r H|s' r H|o s' r H|s' r H]; cbn [call_records]; try lia.
    - eapply exec_grow; [|exact H]. eapply lb_weak. rewrite <- (Nat.add_0_r (u * _)). by apply lb_insert.
    - transitivity (wsum w (log_view s) + u * costs P (snd <$> zip os ol.*2)); [|pose proof (costs_zip os ol.*2); unfold costs, insert_cost in *; nia].
      destruct Hb as [s1 rs s2 r Hm _ Hf|s1 rs e Hm _]; [|by eapply batch_grow].
      apply (f_equal fst) in Hf as Hf'. cbn in Hf'. rewrite <- Hf', flush_grow. by eapply batch_grow.
    - transitivity (wsum w (log_view s) + u * costs P (snd <$> zip os ol.*2)); [|pose proof (costs_zip os ol.*2); unfold costs, insert_cost in *; nia].
      change (log_view (set_chan [] s')) with (log_view s').
      destruct Hb as [s1 rs s2 r Hm _ Hf|s1 rs e Hm _]; [|by eapply batch2_grow].
      apply (f_equal fst) in Hf as Hf'. cbn in Hf'. rewrite <- Hf', flush_grow. by eapply batch2_grow.
    - rewrite Nat.mul_1_r. eapply exec_grow; [|exact H]. eapply lb_weak. pose proof (lb_delete C w u Hw false f io id 0) as Hd. rewrite Nat.add_0_r in Hd. exact Hd.
    - eapply exec_grow; [|exact H]. rewrite Nat.mul_0_r. unfold get. by apply lb_read.
    - eapply exec_grow; [|exact H]. rewrite Nat.mul_0_r. unfold semantic_search, check_open. apply lb_bind, lb_read. intros _. apply lb_bind, lb_lift. intros os _.
      destruct os as [|o' [|]]; [done| |done]. apply lb_bind. unfold hnsw_search. destruct (_ <? _)%Z; [done|].
      apply lb_bind, lb_read. intros [[epid epv] cur]. apply lb_bind, lb_lift. intros d _. apply lb_bind, lb_descend. intros e. apply lb_bind, lb_layer. intros near.
      apply lb_bind, lb_read. intros dels. apply lb_lift. intros es _. apply lb_bind, lb_read. intros ob. apply lb_bind, lb_lift. intros hs _. done.
    - eapply exec_grow; [|exact H]. rewrite Nat.mul_0_r. unfold get_size. by apply lb_read.
    - eapply exec_grow; [|exact H]. rewrite Nat.mul_0_r. unfold update, check_open. by apply lb_read.
    - eapply exec_grow; [|exact H]. rewrite Nat.mul_0_r. unfold close. apply lb_upd; [|done]. intros s0. by destruct (closed s0).
  Qed.
  Lemma cut_grow s c s' : call_cut C s c s' -> wsum w (log_view s') <= wsum w (log_view s) + u * call_records P c.
  Proof.
    intros Hc. destruct Hc as [c|io level o s' ts H|io ol os s' ts H Hm|io ol os s' ts H Hm|io id f s' ts _ H]; cbn [call_records]; try lia.
    - eapply single_grow; [|exact H]. eapply lb_weak. rewrite <- (Nat.add_0_r (u * _)). by apply lb_insert.
    - apply batch_grow in Hm. pose proof (costs_zip os ol.*2); unfold costs, insert_cost in *; nia.
    - apply batch2_grow in Hm. pose proof (costs_zip os ol.*2); unfold costs, insert_cost in *; nia.
    - rewrite Nat.mul_1_r. eapply single_grow; [|exact H]. eapply lb_weak. pose proof (lb_delete C w u Hw false f io id 0) as Hd. rewrite Nat.add_0_r in Hd. exact Hd.
  Qed.
  Lemma reopen_grow n s s' : reopen (disk_of (wal_flush_torn n s)) = Val s' -> wsum w (log_view s') <= wsum w (log_view s).
  Proof.
    intros Hr. destruct (reopen_store _ _ Hr) as (_&_&_&_&_&_&R7&R8&_). unfold log_view. rewrite R7, R8. cbn [disk_of d_log wal_flush_torn set_wal wlog].
    rewrite fmap_nil, app_nil_r, !wsum_app. pose proof (wsum_app w (take n (snd <$> batch s)) (drop n (snd <$> batch s))) as H. rewrite take_drop in H. lia.
  Qed.
  Lemma hist_grow s0 h s : hist C s0 h s -> wsum w (log_view s) <= wsum w (log_view s0) + u * sum_list (ev_records P <$> h).
  Proof.
    induction 1 as [|h e s1 s2 Hh IH He]; [cbn; lia|].
    assert (Hs : sum_list (ev_records P <$> h ++ [e]) = sum_list (ev_records P <$> h) + ev_records P e).
    { rewrite fmap_app. clear. induction h as [|x h IH]; [cbn; lia|]. cbn in *. lia. }
    rewrite Hs. destruct He as [c s' r Hr|s' Hr|c n s3 s' Hc Hr]; cbn [ev_records].
    - apply run_grow in Hr. nia.
    - assert (wsum w (log_view s') <= wsum w (log_view s1)); [|nia].
      destruct (reopen_store _ _ Hr) as (_&_&_&_&_&_&R7&R8&_). unfold log_view. rewrite R7, R8. cbn [disk_of d_log]. rewrite !wsum_app. cbn. lia.
    - apply cut_grow in Hc. apply reopen_grow in Hr. nia.
  Qed.
End growth.

Lemma wsum_ones l : wsum (fun _ => 1) l = length l.
Proof. induction l as [|x l IH]; [done|]. change (1 + wsum (fun _ => 1) l = S (length l)). by rewrite IH. Qed.

(** One call, in any state, with its goroutines in any interleaving. *)
Theorem C90_call_records : forall C s c s' r, call_run C s c s' r ->
  length (log_view s') <= length (log_view s) + call_records (cp_h C) c.
Proof. intros C s c s' r H. pose proof (run_grow C (fun _ => 1) 1 ltac:(done) s c s' r H) as Hg. rewrite !wsum_ones in Hg. lia. Qed.
Print Assumptions C90_call_records.
(** Any history with restarts and crashes at any point. *)
Theorem C90_log_records : forall C s0 h s, hist C s0 h s ->
  length (log_view s) <= length (log_view s0) + sum_list (ev_records (cp_h C) <$> h).
Proof. intros C s0 h s H. pose proof (hist_grow C (fun _ => 1) 1 ltac:(done) s0 h s H) as Hg. rewrite !wsum_ones in Hg. lia. Qed.
Print Assumptions C90_log_records.
(** Every record ever written is short. *)
Theorem C90_record_size : forall C h s r, hist C empty_st h s -> r ∈ log_view s ->
  length r <= 17 + 8 * Nat.max 1 (Nat.max (hp_m (cp_h C)) (2 * hp_mMax (cp_h C))).
Proof.
  intros C h s r H Hr. pose (w := fun r : bytes => if length r <=? rec_max (cp_h C) then 0 else 1).
  assert (Hw : forall r, length r <= rec_max (cp_h C) -> w r <= 0) by (intros x Hx; unfold w; apply Nat.leb_le in Hx; by rewrite Hx).
  pose proof (hist_grow C w 0 Hw _ h s H) as Hg. change (wsum w (log_view empty_st)) with 0 in Hg.
  apply elem_of_list_split in Hr as (l1 & l2 & E). rewrite E in Hg. unfold bytes in *. rewrite wsum_app in Hg. change (wsum w (r :: l2)) with (w r + wsum w l2) in Hg.
  destruct (Nat.leb_spec (length r) (rec_max (cp_h C))) as [Hl|Hl]; [exact Hl|]. assert (w r = 1); [|lia].
  unfold w. destruct (Nat.leb_spec (length r) (rec_max (cp_h C))); [lia|done].
Qed.
Print Assumptions C90_record_size.
(** In bytes: a record is no longer than a full list of connections. *)
Theorem C90_log_bytes : forall C s0 h s, hist C s0 h s ->
  log_bytes (log_view s) <= log_bytes (log_view s0) +
    (17 + 8 * Nat.max 1 (Nat.max (hp_m (cp_h C)) (2 * hp_mMax (cp_h C)))) * sum_list (ev_records (cp_h C) <$> h).
Proof. intros C s0 h s H. exact (hist_grow C length (rec_max (cp_h C)) ltac:(done) s0 h s H). Qed.
Print Assumptions C90_log_bytes.
(** The bound is reached, and not only by the first vertices: after a batch, a
    restart and a crash, a vertex between two others costs 1 + 1 * (2 + 1). *)
Definition growth_script : list sev :=
  [ SCall (CInsert true 0 (ob1 0)); SCall (CInsert true 1 (ob1 1073741824)); SBatch (CBatch2 true [(ob1 1092616192, 1); (ob1 1093664768, 0)]) [0; 1; 1; 0] 200;
    SRestart; SCrash (CDelete true 3) [0; 0; 0] 1; SCall (CDelete true 2) ].
Example C90_case : exists h s s' r,
  hist C11_C empty_st h s /\ call_run C11_C s (CInsert true 0 (ob1 1065353216)) s' (RIns (Val r)) /\
  length (log_view s) = 16 /\ sum_list (ev_records (cp_h C11_C) <$> h) = 24 /\
  length (log_view s') = length (log_view s) + 4 /\ call_records (cp_h C11_C) (CInsert true 0 (ob1 1065353216)) = 4 /\
  log_bytes (log_view s') = 368.
Proof.
  destruct (script_witness C11_C growth_script (fun h s => bool_decide (length (log_view s) = 16) && bool_decide (sum_list (ev_records (cp_h C11_C) <$> h) = 24) &&
      match exec (CollModel.insert C11_C 0 true 0 (ob1 1065353216)) s with
      | Some (s', Val _) => bool_decide (length (log_view s') = length (log_view s) + 4) && bool_decide (log_bytes (log_view s') = 368)
      | _ => false
      end)) as (h & s & Hh & H); [vm_compute; reflexivity|].
  apply andb_true_iff in H as [H H3]. apply andb_true_iff in H as [H1 H2].
  destruct (exec (CollModel.insert C11_C 0 true 0 (ob1 1065353216)) s) as [[s' [o| |]]|] eqn:E; [|done..]. apply andb_true_iff in H3 as [H3 H4].
  apply bool_decide_eq_true_1 in H1, H2, H3, H4. exists h, s, s', o. split_and!; try done. by constructor.
Qed.
