(** The numbering of the index log, for every step of every call. *)
From stdpp Require Import relations.
From Verif Require Import GoBase FloatModel HeapModel ProgModel StateModel WalModel HnswModel StoreModel CollModel CallModel
  ProofBase CodecProofs CodecSpec LogProofs WpProofs StepProofs SimProofs CallProofs.
Open Scope nat_scope.
Local Arguments id_key _ : simpl never.

(** All records written so far: those on disk, then the buffered ones. *)
Definition log_view (s : st) : list bytes := wlog s ++ (snd <$> batch s).

(** The buffered records carry the numbers that follow those on disk. *)
Definition numbered (s : st) : Prop :=
  wseq s = u64 (N.of_nat (length (wlog s) + length (batch s)) + 1) /\
  forall i r, batch s !! i = Some r -> fst r = u64 (N.of_nat (length (wlog s) + i) + 1).

Lemma numbered_in_order s :
  numbered s -> (N.of_nat (length (log_view s)) + 1 < 2 ^ 64)%N ->
  in_order (N.of_nat (length (wlog s)) + 1) (batch s) = true.
Proof.
  intros [_ Hn]. unfold log_view. rewrite app_length, fmap_length. intros Hb.
  enough (H : forall b n, (N.of_nat (n + length b) + 1 < 2 ^ 64)%N ->
    (forall i r, b !! i = Some r -> fst r = u64 (N.of_nat (n + i) + 1)) -> in_order (N.of_nat n + 1) b = true) by (by apply H).
  clear. induction b as [|[q r] b IH]; intros n Hb Hn; [done|]. cbn [in_order]. apply andb_true_iff. split.
  - apply N.eqb_eq. pose proof (Hn 0 (q, r) eq_refl) as E0. cbn in E0. rewrite E0, Nat.add_0_r. apply u64_small. cbn [length] in Hb. lia.
  - replace (N.of_nat n + 1 + 1)%N with (N.of_nat (S n) + 1)%N by lia. apply IH.
    + cbn [length] in Hb. lia.
    + intros i r' Hi. rewrite (Hn (S i) r' Hi). f_equal. lia.
Qed.

Definition wal_rel (s s' : st) : Prop :=
  (numbered s -> numbered s') /\ (exists l, log_view s' = log_view s ++ l) /\ (exists l, wlog s' = wlog s ++ l).
Lemma wal_rel_refl s : wal_rel s s.
Proof. split_and!; [done|exists []; by rewrite app_nil_r..]. Qed.
Lemma wal_rel_trans a b c : wal_rel a b -> wal_rel b c -> wal_rel a c.
Proof.
  intros (H1 & [l1 E1] & [m1 F1]) (H2 & [l2 E2] & [m2 F2]). split_and!; [auto| |].
  - exists (l1 ++ l2). by rewrite E2, E1, app_assoc.
  - exists (m1 ++ m2). by rewrite F2, F1, app_assoc.
Qed.
Lemma wal_rel_same s s' : batch s' = batch s -> wseq s' = wseq s -> wlog s' = wlog s -> wal_rel s s'.
Proof.
  intros E1 E2 E3. unfold wal_rel, numbered, log_view. rewrite E1, E2, E3. split_and!; [done|exists []; by rewrite app_nil_r..].
Qed.
Lemma wal_rel_append d s : wal_rel s (wal_append d s).
Proof.
  split_and!.
  - intros [H1 H2]. unfold numbered. cbn. rewrite app_length. cbn. split.
    + rewrite H1. unfold u64. rewrite N.add_mod_idemp_l by done. f_equal. lia.
    + intros i r Hi. apply lookup_app_Some in Hi as [Hi|[Hge Hi]]; [by apply H2|].
      apply list_lookup_singleton_Some in Hi as [Hi <-]. cbn. rewrite H1. do 2 f_equal. lia.
  - exists [d]. unfold log_view. cbn. by rewrite fmap_app, app_assoc.
  - exists []. cbn. by rewrite app_nil_r.
Qed.
Lemma wal_rel_flush io s : wal_rel s (fst (wal_flush io s)).
Proof.
  unfold wal_flush. destruct (batch s) as [|x b] eqn:Eb; [apply wal_rel_refl|]. destruct (in_order _ _); [|apply wal_rel_refl].
  destruct io; [|apply wal_rel_refl]. cbn [fst]. split_and!.
  - intros [H1 H2]. split; [|done]. cbn. rewrite H1, Eb, app_length. cbn. rewrite fmap_length. do 2 f_equal. lia.
  - exists []. unfold log_view. cbn. rewrite Eb, !app_nil_r. done.
  - cbn. by eexists.
Qed.
Lemma wal_rel_idx : idx_rel wal_rel.
Proof.
  split.
  - apply wal_rel_refl.
  - intros s m. by apply wal_rel_same.
  - intros s d. apply wal_rel_append.
Qed.

Section calls.
  Context (C : cparams).
  Lemma wr_hnsw_insert t fuel level vec id : steps wal_rel (hnsw_insert (cp_h C) t fuel level vec id).
  Proof.
    apply steps_insert; [apply wal_rel_idx| | |apply wal_rel_trans]; intros; by apply wal_rel_same.
  Qed.
  Lemma wr_flush io : steps wal_rel (flush io).
  Proof. apply steps_act. intros s. apply wal_rel_flush. Qed.
  Lemma wr_read {A} (f : st -> out A) : steps wal_rel (act (fun s => (s, f s))).
  Proof. apply steps_act. intros s. apply wal_rel_refl. Qed.
  Lemma wr_put J m o : steps wal_rel (put_object J m o).
  Proof.
    unfold put_object. apply steps_bind; [done|intros ob]. apply steps_bind; [done|intros vb].
    apply steps_bind; [|intros _]; apply steps_act; intros s; unfold bc_put; (destruct (_ <? _)%N; [|destruct (closed s)]); by apply wal_rel_same.
  Qed.
  Lemma wr_insert_one tid level o : steps wal_rel (insert_one C tid level o).
  Proof.
    unfold insert_one. apply steps_bind; [apply steps_act; intros s; destruct (closed s); by apply wal_rel_same|intros id].
    apply steps_bind; [apply wr_put|intros _]. apply steps_bind; [apply wr_hnsw_insert|done].
  Qed.
  Lemma wr_insert tid io level o : steps wal_rel (CollModel.insert C tid io level o).
  Proof.
    unfold CollModel.insert. apply steps_bind; [apply wr_read|intros _]. apply steps_bind; [done|intros _].
    apply steps_bind; [done|]. intros [|o' [|? ?]]; [done| |done].
    apply steps_bind; [apply wr_insert_one|intros o'']. apply steps_bind; [apply wr_flush|done].
  Qed.
  Lemma wr_worker tid os : steps wal_rel (worker C tid os).
  Proof.
    induction os as [|[o l] os IH]; cbn [worker]; [done|]. apply steps_bind; [apply wr_insert_one|intros o'].
    apply steps_bind; [apply IH|done].
  Qed.
  Lemma wr_worker2 n tid : steps wal_rel (worker2 C n tid).
  Proof.
    induction n as [|n IH]; cbn [worker2]; (apply steps_bind; [apply steps_act; intros s; destruct (chan s); by apply wal_rel_same|]); intros [[o l]|]; try done.
    - apply steps_bind; [apply wr_insert_one|done].
    - apply steps_bind; [apply wr_insert_one|intros o']. apply steps_bind; [apply IH|done].
  Qed.
  Lemma wr_delete f io id : steps wal_rel (delete_found f io id).
  Proof.
    unfold delete_found. apply steps_bind; [apply wr_read|]. intros [o|]; [|done].
    apply steps_bind; [apply steps_act; intros s; destruct (closed s); by apply wal_rel_same|intros _].
    apply steps_bind; [|intros _; apply wr_flush]. unfold hnsw_delete. destruct (enc_delete id) as [r| |]; [|done..].
    apply steps_act. intros s. cbn [fst]. eapply wal_rel_trans; [apply (wal_rel_append r)|by apply wal_rel_same].
  Qed.
  Lemma wr_search o k : steps wal_rel (semantic_search C 0 o k).
  Proof.
    unfold semantic_search. apply steps_bind; [apply wr_read|intros _]. apply steps_bind; [done|]. intros [|o' [|? ?]]; [done| |done].
    apply steps_bind; [apply steps_search, wal_rel_idx|intros es]. apply steps_bind; [apply wr_read|intros os]. by apply steps_bind.
  Qed.
  Lemma wr_threads os s s' ts : rtc mstep (s, batch_threads C os) (s', ts) -> wal_rel s s'.
  Proof.
    intros Hr. apply (steps_rtc wal_rel wal_rel_refl wal_rel_trans _ _ Hr). cbn [snd]. unfold batch_threads.
    apply Forall_fmap, Forall_true. intros i. apply wr_worker.
  Qed.
  Lemma wr_threads2 os s s' ts : rtc mstep (s, batch2_threads C os) (s', ts) -> wal_rel s s'.
  Proof.
    intros Hr. apply (steps_rtc wal_rel wal_rel_refl wal_rel_trans _ _ Hr). cbn [snd]. unfold batch2_threads.
    apply Forall_fmap, Forall_true. intros i. apply wr_worker2.
  Qed.
  Lemma wr_batch_run io ts s s' r rs :
    (forall s1 ts1, rtc mstep (s, ts) (s1, ts1) -> wal_rel s s1) -> batch_run io ts s s' r rs -> wal_rel s s'.
  Proof.
    intros H Hb. inversion Hb as [s1 rs1 s2 r1 H1 Hg Hf|s1 rs1 e H1 Hg]; subst; [|by eapply H].
    eapply wal_rel_trans; [by eapply H|]. replace s' with (fst (wal_flush io s1)) by (by rewrite Hf). apply wal_rel_flush.
  Qed.
  Lemma wr_run s c s' r : call_run C s c s' r -> wal_rel s s'.
  Proof.
    pose proof wal_rel_refl as Hrefl.
    intros Hr. inversion Hr as [io level o s1 r1 Hx|io ol r1 Hp Hn|io ol os s1 r1 rs Hp Hb|io ol r1 Hp Hn|io ol os s1 r1 rs Hp Hb|io id f s1 r1 Hlk Hx|ids s1 r1 Hx|o k s1 r1 Hx|s1 r1 Hx|o s1 r1 Hx|s1 r1 Hx]; subst; try done.
    - eapply (steps_exec wal_rel wal_rel_refl wal_rel_trans); [apply wr_insert|exact Hx].
    - eapply wr_batch_run; [|exact Hb]. intros s1 ts1. apply wr_threads.
    - eapply (wal_rel_trans _ (set_chan (zip os ol.*2) s)); [by apply wal_rel_same|]. apply (wal_rel_trans _ s1); [|by apply wal_rel_same].
      eapply wr_batch_run; [|exact Hb]. intros s2 ts1. apply wr_threads2.
    - eapply (steps_exec wal_rel wal_rel_refl wal_rel_trans); [apply wr_delete|exact Hx].
    - unfold CollModel.get in Hx. rewrite exec_act in Hx. by apply Some_pair_inj in Hx as [<- _].
    - eapply (steps_exec wal_rel wal_rel_refl wal_rel_trans); [apply wr_search|exact Hx].
    - unfold get_size in Hx. rewrite exec_act in Hx. by apply Some_pair_inj in Hx as [<- _].
    - unfold CollModel.update, check_open in Hx. rewrite exec_act in Hx. by apply Some_pair_inj in Hx as [<- _].
    - unfold CollModel.close in Hx. rewrite exec_act in Hx. destruct (closed s); apply Some_pair_inj in Hx as [<- _]; [done|by apply wal_rel_same].
  Qed.
  Lemma wr_cut s c s' : call_cut C s c s' -> wal_rel s s'.
  Proof.
    intros Hr. inversion Hr as [|io level o s1 ts Hx|io ol os s1 ts Hp Hx|io ol os s1 ts Hp Hx|io id f s1 ts Hlk Hx]; subst.
    - apply wal_rel_refl.
    - apply (steps_rtc wal_rel wal_rel_refl wal_rel_trans _ _ Hx). constructor; [apply wr_insert|constructor].
    - by eapply wr_threads.
    - eapply (wal_rel_trans _ (set_chan (zip os ol.*2) s)); [by apply wal_rel_same|]. by eapply wr_threads2.
    - apply (steps_rtc wal_rel wal_rel_refl wal_rel_trans _ _ Hx). constructor; [apply wr_delete|constructor].
  Qed.
  Lemma reopen_numbered d s : reopen d = Val s -> numbered s.
  Proof.
    intros Hr. destruct (reopen_store _ _ Hr) as (R1&R2&R3&R4&R5&R6&R7&R8&R9). unfold numbered. rewrite R7, R8, R9.
    split; [|done]. cbn [length]. by rewrite Nat.add_0_r.
  Qed.
  Lemma hist_numbered h s s' : numbered s -> hist C s h s' -> numbered s'.
  Proof.
    intros Hn Hh. induction Hh as [|h e s1 s2 Hh IH Hs]; [done|].
    inversion Hs as [c s3 r Hr|s3 Hr|c n s3 s4 Hc Hr]; subst; [|by eapply reopen_numbered..].
    by apply (wr_run _ _ _ _ Hr).
  Qed.
End calls.
