(** What a restart or a crash gives back: C11, C12, C14, C15 and C51;
    and one-at-a-time use: C59. *)
From stdpp Require Import relations.
From Verif Require Import GoBase FloatModel HeapModel ProgModel StateModel WalModel HnswModel StoreModel CollModel CallModel
  ProofBase CodecProofs CodecSpec LogProofs FloatProofs HeapProofs WpProofs StepProofs SeqLog SimProofs StoreProofs CallProofs HistProofs WalProofs
  RestoreProofs IndexHist ParLog ParHist AlignProofs CollWf HistRun StoreView PropStore.
Open Scope nat_scope.
Local Arguments id_key _ : simpl never.
Local Arguments le_put _ _ : simpl never.

(** The sizes the record formats can carry: the largest stored value and the
    degree bounds fit 32 bits. *)
Definition sizes_ok (C : cparams) : Prop :=
  (cp_maxval C < 2 ^ 32)%N /\ (N.of_nat (Nat.max (hp_m (cp_h C)) (2 * hp_mMax (cp_h C))) < 2 ^ 32)%N.

(** ** C11 Restart restores the index exactly *)
Theorem C11_restart_restores_index : forall C h s,
  sizes_ok C -> hist C empty_st h s -> Forall (quiet C) h -> (N.of_nat (hist_inserts h) < 2 ^ 64)%N -> log_small C h s ->
  exists s', reopen (disk_of s) = Val s' /\
    nodes s' = nodes s /\ ep s' = ep s /\ maxl s' = maxl s /\ deleted s' = deleted s /\
    objs s' = objs s /\ vecs s' = vecs s /\ cnt s' = cnt s /\
    (closed s = false -> forall o k, snd <$> exec (semantic_search C 0 o k) s' = snd <$> exec (semantic_search C 0 o k) s).
Proof.
  intros C h s [Hmax Hdeg] Hh Hq Hn Hl. destruct (hist_quiet C Hmax Hdeg h s Hh Hq Hn Hl) as (HI & Hc & HQ & Hb).
  destruct (reopen_restores s _ (QInv_restorable _ _ HQ Hb) (si_file _ HI)) as (s' & Hr & E1 & E2 & E3 & E4 & E5).
  destruct (reopen_store _ _ Hr) as (R1&R2&R3&R4&R5&R6&R7&R8&R9). cbn in *.
  exists s'. split_and!; try done.
  - rewrite R2, (si_file _ HI) in R1. by apply Val_inj in R1.
  - intros Hcl o k. apply search_view. unfold same_view. by rewrite Hcl.
Qed.
Print Assumptions C11_restart_restores_index.

(** Without restarts it is enough that the final log is small. *)
Lemma log_small_final C h s :
  hist C empty_st h s -> Forall (quiet C) h -> EvRestart ∉ h ->
  (N.of_nat (length (log_view s)) + 1 < 2 ^ 64)%N -> log_small C h s.
Proof.
  intros _ Hq Hr Hl h1 h2 s1 -> _ Hb. apply Forall_app in Hq as [_ Hq2].
  assert (H : wal_rel s1 s).
  { clear Hl. induction Hb as [|h2 e s2 s3 Hb IH Hs]; [apply wal_rel_refl|]. apply Forall_app in Hq2 as [Hq2 He]. apply Forall_cons in He as [He _].
    eapply wal_rel_trans; [apply IH; first [done | set_solver]|].
    inversion Hs as [c s4 r Hrun|s4 Hrun|c n s4 s5 Hcut Hrun]; subst; [by eapply wr_run|set_solver|done]. }
  destruct H as (_ & (l & El) & _). rewrite El, app_length in Hl. lia.
Qed.

Definition quietb (e : event) : bool :=
  match e with
  | EvCall (CInsert io level o) (RIns r) => io && (N.of_nat level <? 2 ^ 32)%N && forallb (fun f => (f <? 2 ^ 32)%N) (vec_or_nil o) && match r with Pan _ => false | _ => true end
  | EvCall (CDelete io id) _ => io && (id <? 2 ^ 64)%N
  | EvCall (CSearch _ _) (RSearch r) => match r with Pan _ => false | _ => true end
  | EvCall (CGet _) _ | EvCall CSize _ | EvCall (CUpdate _) _ | EvCall CClose _ => true
  | EvRestart => true
  | _ => false
  end.
Lemma quietb_ok C e : cp_embed C = None -> quietb e = true -> quiet C e.
Proof.
  intros HC. destruct e as [[io level o|io ol|io ol|io id|ids|o k| |o| ] [r|r rs|r|r|r|r]| |c n]; try done; cbn [quietb quiet].
  - intros H. repeat (apply andb_true_iff in H as [H ?]). split_and!; [done| |by intros p ->]. split; [by apply N.ltb_lt|].
    intros os o' He Ho. unfold embed_objects in He. rewrite HC in He. destruct (existsb _ _); [done|]. apply Val_inj in He as <-.
    apply elem_of_list_singleton in Ho as ->. apply Forall_forall. intros f Hf. apply N.ltb_lt.
    match goal with E : forallb _ _ = true |- _ => rewrite forallb_forall in E; apply E, elem_of_list_In, Hf end.
  - intros H. apply andb_true_iff in H as [? ?]. split; [done|]. by apply N.ltb_lt.
  - intros H. apply andb_true_iff in H as [? ?]. split; [done|]. by apply N.ltb_lt.
  - intros H. apply andb_true_iff in H as [? ?]. split; [done|]. by apply N.ltb_lt.
  - intros H. apply andb_true_iff in H as [? ?]. split; [done|]. by apply N.ltb_lt.
  - intros H. apply andb_true_iff in H as [? ?]. split; [done|]. by apply N.ltb_lt.
  - intros H. apply andb_true_iff in H as [? ?]. split; [done|]. by apply N.ltb_lt.
  - intros H p ->. done.
Qed.
Definition no_restartb (e : event) : bool := match e with EvRestart => false | _ => true end.
Lemma quiet_check C h s :
  cp_embed C = None -> hist C empty_st h s ->
  forallb quietb h && forallb no_restartb h && (N.of_nat (hist_inserts h) <? 2 ^ 64)%N && (N.of_nat (length (log_view s)) + 1 <? 2 ^ 64)%N = true ->
  Forall (quiet C) h /\ (N.of_nat (hist_inserts h) < 2 ^ 64)%N /\ log_small C h s.
Proof.
  intros HC Hh H. repeat (apply andb_true_iff in H as [H ?]).
  assert (Hq : Forall (quiet C) h).
  { apply Forall_forall. intros e He. apply quietb_ok; [done|]. rewrite forallb_forall in H. by apply H, elem_of_list_In. }
  split_and!; [done|by apply N.ltb_lt|]. eapply log_small_final; [done|done| |by apply N.ltb_lt].
  intros Hin. match goal with E : forallb no_restartb _ = true |- _ => rewrite forallb_forall in E; specialize (E EvRestart) end.
  by rewrite <- elem_of_list_In in *; intuition.
Qed.

(** Seven inserts on up to three layers, some with the heuristic pruning full
    lists, and two deletes. *)
Definition ob1 (v : N) : object := Object 0 ∅ (Some [v]).
Definition C11_C : cparams := CParams (HParams 2 2 4 4 true Euclidean) [] None ex_json 65536 2 50.
Definition C11_script : list sev :=
  [ SCall (CInsert true 0 (ob1 0)); SCall (CInsert true 1 (ob1 1065353216)); SCall (CInsert true 0 (ob1 1073741824));
    SCall (CInsert true 2 (ob1 1077936128)); SCall (CDelete true 1); SCall (CInsert true 0 (ob1 1082130432));
    SCall (CInsert true 1 (ob1 1084227584)); SCall (CSearch (ob1 1069547520) 3); SCall (CInsert true 0 (ob1 1056964608)); SCall (CDelete true 3) ].
Example C11_case : exists h s, sizes_ok C11_C /\ hist C11_C empty_st h s /\ Forall (quiet C11_C) h /\ (N.of_nat (hist_inserts h) < 2 ^ 64)%N /\
  log_small C11_C h s /\ size (nodes s) = 7 /\ deleted s = {[1; 3]}%N /\ maxl s = 2 /\ closed s = false.
Proof.
  destruct (script_witness C11_C C11_script
    (fun h s => (forallb quietb h && forallb no_restartb h && (N.of_nat (hist_inserts h) <? 2 ^ 64)%N && (N.of_nat (length (log_view s)) + 1 <? 2 ^ 64)%N) &&
       bool_decide (size (nodes s) = 7) && bool_decide (deleted s = {[1; 3]}%N) && bool_decide (maxl s = 2) && negb (closed s))) as (h & s & Hh & H).
  { vm_compute. reflexivity. }
  apply andb_true_iff in H as [H H5]. apply andb_true_iff in H as [H H4]. apply andb_true_iff in H as [H H3]. apply andb_true_iff in H as [H H2].
  destruct (quiet_check C11_C h s eq_refl Hh H) as (Q1 & Q2 & Q3). exists h, s.
  apply bool_decide_eq_true_1 in H2. apply bool_decide_eq_true_1 in H3. apply bool_decide_eq_true_1 in H4. apply negb_true_iff in H5.
  split; [by split|]. by split_and!.
Qed.

(** ** C12 Restart after a parallel batch *)
(** Same vertices, with the same layers and vectors. *)
Definition same_vertices (s s' : st) : Prop := forall id,
  match nodes s !! id, nodes s' !! id with
  | Some v, Some v' => v_vec v' = v_vec v /\ length (v_conns v') = length (v_conns v)
  | None, None => True
  | _, _ => False
  end.

Lemma flushed_reopens s : SInv s -> PInv s -> batch s = [] ->
  exists s', reopen (disk_of s) = Val s' /\ ep s' = ep s /\ maxl s' = maxl s /\ deleted s' = deleted s /\ same_vertices s s' /\
    objs s' = objs s /\ vecs s' = vecs s /\ cnt s' = cnt s.
Proof.
  intros HI (os & b & HW) Hb.
  assert (Hlog : log_view s = d_log (disk_of s) ++ []) by (unfold log_view; cbn; by rewrite Hb).
  destruct (reopen_prefix [] s os b HW (disk_of s) [] Hlog eq_refl (si_file _ HI) b os []) as (s' & Hr & E1 & E2 & E3 & E4).
  - apply (pw_ok _ _ _ _ HW).
  - pose proof (pw_enc _ _ _ _ HW) as He. cbn in He. rewrite Hlog, app_nil_r in He. done.
  - apply (pw_app _ _ _ _ HW).
  - done.
  - intros id Hid Hlt. destruct (pw_key _ _ _ _ HW (id_key id) Hid) as (id' & Ek & Hlt' & [Hn|(i & vec & Hi)]); [|done]. cbn in Hlt'.
    pose proof (pw_cnt _ _ _ _ HW) as Hc. cbn in Hc. apply id_key_inj in Ek; [|lia..]. by subst.
  - destruct (reopen_store _ _ Hr) as (R1&R2&R3&R4&R5&R6&R7&R8&R9). cbn in *. exists s'. split_and!; try done.
    + rewrite E2. apply (pw_ep _ _ _ _ HW).
    + rewrite E3. apply (pw_maxl _ _ _ _ HW).
    + rewrite E4. apply (pw_del _ _ _ _ HW).
    + intros id. rewrite E1, loaded_lookup. destruct (nodes s !! id) as [v|] eqn:Ev.
      * assert (Hn : p_n (pview s) !! id = Some (v_conns v, v_vec v)) by (cbn; rewrite lookup_fmap, Ev; done).
        destruct (pw_lev _ _ _ _ HW _ _ _ Hn) as (w & -> & Hl). cbn. split; [|done].
        pose proof (stored_vec_get _ _ _ (pw_vec _ _ _ _ HW _ _ _ Hn)) as Hg. cbn in Hg. by rewrite Hg.
      * destruct (nodes b !! id) as [w|] eqn:Ew; [|done]. destruct (pw_dom _ _ _ _ HW id) as [Hn|(i & vec & l & Hi)]; [by eexists| |done].
        cbn in Hn. rewrite lookup_fmap, Ev in Hn. by destruct Hn.
    + rewrite R2, (si_file _ HI) in R1. by apply Val_inj in R1.
Qed.

(** A call that reports success leaves nothing unwritten. *)
Lemma flush_ok io s s' : wal_flush io s = (s', Val tt) -> batch s' = [].
Proof.
  unfold wal_flush. destruct (batch s) as [|x l] eqn:Eb; [by intros [-> _]%pair_inj|]. destruct (in_order _ _); [|by intros [_ ?]%pair_inj].
  destruct io; [|by intros [_ ?]%pair_inj]. by intros [<- _]%pair_inj.
Qed.
Lemma batch_flushed io ts s s' rs : batch_run io ts s s' (Val tt) rs -> batch s' = [].
Proof. intros Hb. inversion Hb as [s2 rs2 s3 r3 H2 Hg Hfl|s2 rs2 e H2 Hg]; subst. by eapply flush_ok. Qed.
Definition batch_call (c : call) : bool := match c with CBatch _ _ | CBatch2 _ _ => true | _ => false end.

(** Missing from the property: the neighbour lists, which need not be the same
    (C12_restart_after_batch_refuted). *)
Theorem C12_restart_after_batch_partial : forall C h c rs s,
  sizes_ok C -> hist C empty_st (h ++ [EvCall c (RBatch (Val tt) rs)]) s -> batch_call c = true ->
  Forall (ev_fed C) (h ++ [EvCall c (RBatch (Val tt) rs)]) ->
  (N.of_nat (hist_inserts (h ++ [EvCall c (RBatch (Val tt) rs)])) < 2 ^ 64)%N ->
  exists s', reopen (disk_of s) = Val s' /\ ep s' = ep s /\ maxl s' = maxl s /\ deleted s' = deleted s /\ same_vertices s s' /\
    objs s' = objs s /\ vecs s' = vecs s /\ cnt s' = cnt s.
Proof.
  intros C h c rs s [Hmax Hdeg] Hh Hbc Hf Hn. destruct (hist_par C Hmax Hdeg _ _ Hh Hf Hn) as (HI & HP & _).
  apply flushed_reopens; [done..|]. inversion Hh as [E|h' e' s1 s2 Hh1 Hs E]; [by destruct h|]. apply app_inj_tail in E as [-> ->]. subst.
  inversion Hs as [c' s2 r Hr|s2 Hr|c' n s2 s3 Hcut Hr]; subst. inversion Hr; subst; try done.
  - match goal with H : (_ ← ?x; _) = Val tt, Hne : forall os, _ <> Val os |- _ => destruct x as [os|e|z]; try done; by edestruct Hne end.
  - by eapply batch_flushed.
  - match goal with H : (_ ← ?x; _) = Val tt, Hne : forall os, _ <> Val os |- _ => destruct x as [os|e|z]; try done; by edestruct Hne end.
  - cbn. by eapply batch_flushed.
Qed.
Print Assumptions C12_restart_after_batch_partial.

(** Checking that a history's input fits the formats. *)
Definition call_fedb (c : call) : bool :=
  forallb (fun l => (N.of_nat l <? 2 ^ 32)%N) (call_levels c) &&
  forallb (fun o => forallb (fun f => (f <? 2 ^ 32)%N) (vec_or_nil o)) (submitted c) &&
  match c with CDelete _ id => (id <? 2 ^ 64)%N | _ => true end.
Definition ev_fedb (e : event) : bool := match e with EvCall c _ | EvCrash c _ => call_fedb c | EvRestart => true end.
Lemma call_fedb_ok C c : cp_embed C = None -> call_fedb c = true -> call_fed C c.
Proof.
  intros HC H. unfold call_fedb in H. apply andb_true_iff in H as [H H3]. apply andb_true_iff in H as [H1 H2]. split_and!.
  - apply Forall_forall. intros l Hl. rewrite forallb_forall in H1. apply N.ltb_lt, (H1 l), elem_of_list_In, Hl.
  - intros os He. unfold embed_objects in He. rewrite HC in He. destruct (existsb _ _); [done|]. apply Val_inj in He as <-.
    apply Forall_forall. intros o Ho. rewrite forallb_forall in H2. apply elem_of_list_In, H2 in Ho.
    apply Forall_forall. intros f Hf. rewrite forallb_forall in Ho. apply N.ltb_lt, Ho, elem_of_list_In, Hf.
  - destruct c; try done. by apply N.ltb_lt.
Qed.
Lemma ev_fedb_ok C h : cp_embed C = None -> forallb ev_fedb h = true -> Forall (ev_fed C) h.
Proof.
  intros HC H. apply Forall_forall. intros e He. rewrite forallb_forall in H. apply elem_of_list_In, H in He.
  destruct e; cbn in *; [by apply call_fedb_ok|done|by apply call_fedb_ok].
Qed.

(** The ids a search reports. *)
Definition hit_ids (C : cparams) (o : object) (k : Z) (s : st) : option (list N) :=
  match exec (semantic_search C 0 o k) s with Some (_, Val (_, hs)) => Some (h_id <$> hs) | _ => None end.

(** Two objects inserted one by one, then a batch of two on two workers.  The
    first worker has logged the neighbours of its vertex 2 on layer 0 but not
    yet stored them in memory; the second worker finds vertex 2 on layer 1 and
    adds its vertex 3 to the neighbours of vertex 2 on layer 0, in the log and
    in memory; then the first worker overwrites the list in memory.  In memory
    nothing leads to vertex 3; after a restart it is found. *)
Definition C12_C : cparams := CParams (HParams 4 4 8 8 false Euclidean) [] None ex_json 65536 2 50.
Definition C12_script : list sev :=
  [ SCall (CInsert true 0 (ob1 0)); SCall (CInsert true 1 (ob1 1065353216));
    SBatch (CBatch true [(ob1 1073741824, 1); (ob1 1077936128, 0)]) (replicate 16 0 ++ replicate 17 1) 200 ].
Theorem C12_restart_after_batch_refuted : exists C h c rs s s' o k,
  sizes_ok C /\ hist C empty_st (h ++ [EvCall c (RBatch (Val tt) rs)]) s /\ batch_call c = true /\
  Forall (ev_fed C) (h ++ [EvCall c (RBatch (Val tt) rs)]) /\
  (N.of_nat (hist_inserts (h ++ [EvCall c (RBatch (Val tt) rs)])) < 2 ^ 64)%N /\
  reopen (disk_of s) = Val s' /\ conns_of s' <> conns_of s /\
  hit_ids C o k s = Some [2; 1; 0]%N /\ hit_ids C o k s' = Some [3; 2; 1; 0]%N.
Proof.
  destruct (script_witness C12_C C12_script
    (fun h s => match h with
      | [e1; e2; EvCall c (RBatch (Val tt) rs)] =>
          batch_call c && forallb ev_fedb h && (N.of_nat (hist_inserts h) <? 2 ^ 64)%N &&
          bool_decide (hit_ids C12_C (ob1 1077936128) 4 s = Some [2; 1; 0]%N) &&
          match reopen (disk_of s) with
          | Val s' => negb (bool_decide (conns_of s' = conns_of s)) && bool_decide (hit_ids C12_C (ob1 1077936128) 4 s' = Some [3; 2; 1; 0]%N)
          | _ => false
          end
      | _ => false
      end)) as (h & s & Hh & H).
  { vm_compute. reflexivity. }
  destruct h as [|e1 [|e2 [|[c [| [[]| |] rs| | | |]| |] [|? ?]]]]; try done.
  destruct (reopen (disk_of s)) as [s'| |] eqn:Er; [|by rewrite andb_false_r in H..].
  apply andb_true_iff in H as [H H5]. apply andb_true_iff in H5 as [H5 H6].
  apply andb_true_iff in H as [H H4]. apply andb_true_iff in H as [H H3]. apply andb_true_iff in H as [H1 H2].
  exists C12_C, [e1; e2], c, rs, s, s', (ob1 1077936128), 4%Z. split; [by split|]. split; [done|]. split; [done|].
  split; [by apply (ev_fedb_ok C12_C [e1; e2; EvCall c (RBatch (Val tt) rs)])|]. split; [by apply N.ltb_lt|]. split; [done|].
  apply negb_true_iff, bool_decide_eq_false in H5. apply bool_decide_eq_true_1 in H4. apply bool_decide_eq_true_1 in H6. done.
Qed.
Print Assumptions C12_restart_after_batch_refuted.

(** ** C14 The database reopens after a crash *)
(** The records on disk that create a vertex. *)
Definition vertex_on_disk (log : list bytes) (id : N) : Prop :=
  exists level r, (N.of_nat level < 2 ^ 32)%N /\ enc_add_vertex id level = Val r /\ r ∈ log.

Lemma reopens_iff ps os b s1 n : pW0 ps (pview s1) os b -> open_counter (cfile s1) = Val (cnt s1) ->
  (exists s', reopen (disk_of (wal_flush_torn n s1)) = Val s') <->
  (forall id, (id < 2 ^ 64)%N -> is_Some (vecs s1 !! id_key id) -> vertex_on_disk (wlog s1 ++ take n (snd <$> batch s1)) id).
Proof.
  intros HW Hcf. set (d := disk_of (wal_flush_torn n s1)).
  destruct (prefix_replay _ _ _ _ HW d _ (torn_log n s1)) as (os1 & os2 & b1 & Eos & Hok & Henc & Hb1 & Hb2).
  split.
  - intros [s' Hr] id H64 Hid.
    assert (Hlt : (id < cnt s1)%N).
    { destruct (pw_key _ _ _ _ HW (id_key id) Hid) as (id' & Ek & Hlt & _). pose proof (pw_cnt _ _ _ _ HW) as Hc2. cbn in Hlt, Hc2.
      apply id_key_inj in Ek; [by subst|done|lia]. }
    pose proof (reopen_cover _ _ _ _ HW d _ (torn_log n s1) eq_refl Hcf b1 os1 os2 s' Hok Henc Hb1 Hb2 Hr id Hid Hlt) as Hb.
    apply (wops_apply_dom _ _ _ Hb1) in Hb as [[x Hx]|[l Hl]]; [done|]. destruct (enc_elem _ _ _ Henc Hl) as (r & Hr' & Hin).
    rewrite Forall_forall in Hok. destruct (Hok _ Hl) as [_ Hlv]. by exists l, r.
  - intros Hd. destruct (reopen_prefix _ _ _ _ HW d _ (torn_log n s1) eq_refl Hcf b1 os1 os2 Hok Henc Hb1 Hb2) as (s' & Hr & _); [|by exists s'].
    intros id Hid Hlt. pose proof (pw_cnt _ _ _ _ HW) as Hc2. cbn in Hc2. destruct (Hd id) as (l & r & Hlv & He & Hin); [lia|done|].
    destruct (elem_enc _ _ _ Henc Hin) as (o & Ho & Hino). rewrite Forall_forall in Hok.
    assert (o = WAddVertex id l) as -> by (eapply enc_wop_inj; [by apply Hok|split; [unfold id_ok; lia|done]|done|done]).
    apply (wops_apply_dom _ _ _ Hb1). right. by exists l.
Qed.

(** A crash at any moment of any call, with any number of the buffered records
    on disk: reopening succeeds exactly when the vertex of every stored vector
    has reached the disk.  Missing from the property: it does not always
    (C14_reopens_after_crash_refuted). *)
Theorem C14_reopens_after_crash_partial : forall C h s c s1 n,
  sizes_ok C -> hist C empty_st h s -> Forall (ev_fed C) h -> call_fed C c ->
  (N.of_nat (hist_inserts h + length (submitted c)) < 2 ^ 64)%N -> call_cut C s c s1 ->
  (exists s', reopen (disk_of (wal_flush_torn n s1)) = Val s') <->
  (forall id, (id < 2 ^ 64)%N -> is_Some (vecs s1 !! id_key id) -> vertex_on_disk (wlog s1 ++ take n (snd <$> batch s1)) id).
Proof.
  intros C h s c s1 n [Hmax Hdeg] Hh Hf Hfc Hn Hcut. destruct (hist_par C Hmax Hdeg _ _ Hh Hf) as (HI & HP & Hc); [lia|].
  pose proof (cut_par C Hmax Hdeg s c s1 HI HP ltac:(lia) Hfc Hcut) as (xs & os & b & HW).
  destruct (call_cut_store C s c n s1 HI) as (ids & _ & Hcf); [cbn; lia|done|].
  by eapply reopens_iff.
Qed.
Print Assumptions C14_reopens_after_crash_partial.

(** In particular: a crash before any new vector is stored does no harm if all
    earlier records are on disk. *)
Theorem C14_crash_before_vector_partial : forall C h s c s1 n,
  sizes_ok C -> hist C empty_st h s -> Forall (ev_fed C) h -> call_fed C c ->
  (N.of_nat (hist_inserts h + length (submitted c)) < 2 ^ 64)%N -> call_cut C s c s1 ->
  batch s = [] -> vecs s1 = vecs s -> exists s', reopen (disk_of (wal_flush_torn n s1)) = Val s'.
Proof.
  intros C h s c s1 n HC Hh Hf Hfc Hn Hcut Hb Hv. apply (C14_reopens_after_crash_partial C h s c s1 n); [done..|].
  intros id Hid H. rewrite Hv in H. destruct HC as [Hmax Hdeg]. destruct (hist_par C Hmax Hdeg _ _ Hh Hf) as (HI & HP & Hc); [lia|].
  destruct (flushed_reopens s HI HP Hb) as (s' & Hr & _). destruct HP as (os & b & HW).
  destruct (proj1 (reopens_iff _ _ _ s 0 HW (si_file _ HI))) with (id := id) as (l & r & H1 & H2 & H3); try done.
  - exists s'. rewrite <- Hr. f_equal. unfold disk_of, wal_flush_torn. cbn. by rewrite take_0, app_nil_r.
  - exists l, r. split_and!; [done..|]. destruct (wr_cut _ _ _ _ Hcut) as (_ & _ & (l' & ->)).
    rewrite take_0, app_nil_r in H3. set_solver.
Qed.
Print Assumptions C14_crash_before_vector_partial.

(** A crash right after the vector of the second object was stored. *)
Theorem C14_reopens_after_crash_refuted : exists C h s c s1,
  sizes_ok C /\ hist C empty_st h s /\ Forall (ev_fed C) h /\ call_fed C c /\
  (N.of_nat (hist_inserts h + length (submitted c)) < 2 ^ 64)%N /\ call_cut C s c s1 /\
  forall n, reopen (disk_of (wal_flush_torn n s1)) = Pan PNil.
Proof.
  set (c := CInsert true 0 (ob1 1065353216)).
  destruct (script_witness C11_C [SCall (CInsert true 0 (ob1 0))]
    (fun h s => forallb ev_fedb h && bool_decide (hist_inserts h = 1) &&
       match cut_exec C11_C c (replicate 4 0) s with
       | Some s1 => bool_decide (batch s1 = []) && match reopen (disk_of s1) with Pan PNil => true | _ => false end
       | None => false
       end)) as (h & s & Hh & H).
  { vm_compute. reflexivity. }
  apply andb_true_iff in H as [H H3]. apply andb_true_iff in H as [H1 H2]. apply bool_decide_eq_true_1 in H2.
  destruct (cut_exec C11_C c (replicate 4 0) s) as [s1|] eqn:Ec; [|done]. apply andb_true_iff in H3 as [H3 H4]. apply bool_decide_eq_true_1 in H3.
  exists C11_C, h, s, c, s1. split; [by split|]. split_and!; [done|by apply ev_fedb_ok|by apply call_fedb_ok|by rewrite H2|by eapply cut_exec_cut|].
  intros n. assert (disk_of (wal_flush_torn n s1) = disk_of s1) as ->.
  { unfold disk_of, wal_flush_torn. cbn. rewrite H3. cbn. by rewrite take_nil, app_nil_r. }
  destruct (reopen (disk_of s1)) as [|e|[]]; done.
Qed.
Print Assumptions C14_reopens_after_crash_refuted.

(** The hypotheses of C14_reopens_after_crash_partial with both outcomes: a
    crash during the second insert, when the record of the new vertex is in the
    buffer; the collection opens if at least that record was written. *)
Example C14_case : exists h s c s1,
  sizes_ok C11_C /\ hist C11_C empty_st h s /\ Forall (ev_fed C11_C) h /\ call_fed C11_C c /\
  (N.of_nat (hist_inserts h + length (submitted c)) < 2 ^ 64)%N /\ call_cut C11_C s c s1 /\
  (exists s', reopen (disk_of (wal_flush_torn 1 s1)) = Val s') /\ reopen (disk_of (wal_flush_torn 0 s1)) = Pan PNil.
Proof.
  set (c := CInsert true 0 (ob1 1065353216)).
  destruct (script_witness C11_C [SCall (CInsert true 0 (ob1 0))]
    (fun h s => forallb ev_fedb h && bool_decide (hist_inserts h = 1) &&
       match cut_exec C11_C c (replicate 7 0) s with
       | Some s1 => match reopen (disk_of (wal_flush_torn 1 s1)) with Val _ => true | _ => false end &&
                    match reopen (disk_of (wal_flush_torn 0 s1)) with Pan PNil => true | _ => false end
       | None => false
       end)) as (h & s & Hh & H).
  { vm_compute. reflexivity. }
  apply andb_true_iff in H as [H H3]. apply andb_true_iff in H as [H1 H2]. apply bool_decide_eq_true_1 in H2.
  destruct (cut_exec C11_C c (replicate 7 0) s) as [s1|] eqn:Ec; [|done]. apply andb_true_iff in H3 as [H3 H4].
  exists h, s, c, s1. split; [by split|]. split_and!; [done|by apply ev_fedb_ok|by apply call_fedb_ok|by rewrite H2|by eapply cut_exec_cut| |].
  - destruct (reopen (disk_of (wal_flush_torn 1 s1))) as [s'| |]; [by exists s'|done..].
  - destruct (reopen (disk_of (wal_flush_torn 0 s1))) as [|e|[]]; done.
Qed.

(** ** C59 One-at-a-time use never panics *)
(** The collection and how much it is given: accepted parameters, vectors of
    dimension [n], at most [B] objects (the fuel of the model's loops is no
    smaller), sizes the formats can carry, a JSON decoder that reads what the
    encoder wrote. *)
Record use_ok (C : cparams) (n B : nat) : Prop := MkUse {
  use_par : params_ok (cp_h C);
  use_dim : dim_ok (hp_dist (cp_h C)) n;
  use_fuel : B <= cp_fuel C;
  use_ids : (N.of_nat B < 2 ^ 64)%N;
  use_sizes : sizes_ok C;
  use_json : json_total (cp_json C)
}.
Theorem C59_sequential_use_never_panics : forall C n B h s c,
  use_ok C n B -> hist C empty_st h s -> Forall (tidy_ev C n) h -> fed_first h -> log_small C h s ->
  hist_inserts h + length (submitted c) <= B -> tidy C n c -> (is_search c = true -> acked_ids h <> []) ->
  Forall ev_no_pan h /\ (exists s' r, call_run C s c s' r) /\ (forall s' r, call_run C s c s' r -> reply_no_pan r) /\
  exists s', reopen (disk_of s) = Val s'.
Proof.
  intros C n B h s c [HP Hk HB HB64 [Hmax Hdeg] HJ] Hh Ht Hff Hl Hn Hc Hse.
  destruct (hist_tidy C n B false HP (seq_slack _ HP) Hk HB HB64 Hmax Hdeg HJ h s Hh Ht Hff ltac:(lia) Hl) as (HW & Hq & Hp & Hcnt & Ha).
  assert (Hen : enc_ok C s) by (eapply hist_enc; [exact Hh|apply enc_empty]).
  assert (Hse' : is_search c = true -> nodes s <> ∅).
  { intros E. specialize (Hse E). intros E2. destruct (acked_ids h) as [|i l]; [done|]. destruct (Ha i ltac:(by left)) as [v Hv]. by rewrite E2 in Hv. }
  destruct (wf_call C n B false HP (seq_slack _ HP) Hk HB HB64 Hmax Hdeg HJ c s HW Hen ltac:(lia) (tidy_calm1 _ _ _ Hc) Hse') as (s' & r & Hr & _).
  split_and!; [done|by eexists _, _| |].
  - intros s2 r2 Hr2. eapply (wf_run C n B false HP (seq_slack _ HP) Hk HB HB64 Hmax Hdeg HJ c s); try done; [lia|by apply tidy_calm1].
  - destruct (C11_restart_restores_index C h s) as (s2 & Hr2 & _); try done; [lia|]. by exists s2.
Qed.
Print Assumptions C59_sequential_use_never_panics.

(** On an open collection a search gets its answer (or the embedder's error),
    and every hit is a stored object with its own distance. *)
Theorem C59_search_answers : forall C n B h s o k,
  use_ok C n B -> hist C empty_st h s -> Forall (tidy_ev C n) h -> fed_first h -> log_small C h s ->
  hist_inserts h <= B -> tidy C n (CSearch o k) -> acked_ids h <> [] -> closed s = false -> (forall e, embed_objects C [o] <> Err e) ->
  exists o' m hs, exec (semantic_search C 0 o k) s = Some (s, Val (m, hs)) /\ embed_objects C [o] = Val [o'] /\
    m = length hs /\ Forall (true_hit C s (vec_or_nil o')) hs.
Proof.
  intros C n B h s o k [HP Hk HB HB64 [Hmax Hdeg] HJ] Hh Ht Hff Hl Hn [Hd Hk0] Hne Hcl He.
  destruct (hist_tidy C n B false HP (seq_slack _ HP) Hk HB HB64 Hmax Hdeg HJ h s Hh Ht Hff ltac:(lia) Hl) as (HW & Hq & Hp & Hcnt & Ha).
  assert (Hen : enc_ok C s) by (eapply hist_enc; [exact Hh|apply enc_empty]).
  destruct (wf_search C n B false HP (seq_slack _ HP) Hk HB HB64 o k s Hmax HJ Hen HW) as (r & Hx & _ & Hv); try done.
  { intros E2. destruct (acked_ids h) as [|i l]; [done|]. destruct (Ha i ltac:(by left)) as [v Hv]. by rewrite E2 in Hv. }
  destruct (Hv Hcl He) as (m & hs & ->).
  destruct (hist_par C Hmax Hdeg h s Hh (tidy_ev_fed C n h Ht) ltac:(lia)) as (_ & HPI & _).
  destruct (search_true _ _ _ _ _ _ _ HPI (wf_al _ _ _ _ _ HW) Hx) as (o' & es & E1 & _ & E2 & _ & E3). by exists o', m, hs.
Qed.
Print Assumptions C59_search_answers.

(** Checking a history (no embedder). *)
Definition tidyb (n : nat) (c : call) : bool :=
  match c with
  | CInsert io level o => io && (N.of_nat level <? 2 ^ 32)%N && forallb (fun f => (f <? 2 ^ 32)%N) (vec_or_nil o) && (length (vec_or_nil o) =? n)
  | CDelete io id => io && (id <? 2 ^ 64)%N
  | CSearch o k => (length (vec_or_nil o) =? n) && (0 <=? k)%Z
  | CGet _ | CSize | CUpdate _ | CClose => true
  | CBatch _ _ | CBatch2 _ _ => false
  end.
Lemma tidyb_ok C n c : cp_embed C = None -> tidyb n c = true -> tidy C n c.
Proof.
  intros HC H.
  assert (Hemb : forall o os o', embed_objects C [o] = Val os -> o' ∈ os -> o' = o).
  { intros o os o' He Ho. unfold embed_objects in He. rewrite HC in He. destruct (existsb _ _); [done|]. apply Val_inj in He as <-.
    by apply elem_of_list_singleton in Ho. }
  assert (Hnp : forall o, no_pan (embed_objects C [o])).
  { intros o p. unfold embed_objects. rewrite HC. by destruct (existsb _ _). }
  destruct c as [io level o|io ol|io ol|io id|ids|o k| |o| ]; try done; cbn in H.
  - apply andb_true_iff in H as [H H4]. apply andb_true_iff in H as [H H3]. apply andb_true_iff in H as [H1 H2]. split_and!; [done| |].
    + split; [by apply N.ltb_lt|]. intros os o' He Ho. rewrite (Hemb _ _ _ He Ho). apply Forall_forall. intros f Hf.
      rewrite forallb_forall in H3. by apply N.ltb_lt, H3, elem_of_list_In.
    + split; [done|]. intros os o' He Ho. rewrite (Hemb _ _ _ He Ho). by apply Nat.eqb_eq.
  - apply andb_true_iff in H as [H1 H2]. split; [done|]. by apply N.ltb_lt.
  - apply andb_true_iff in H as [H1 H2]. split; [|by apply Z.leb_le]. split; [done|]. intros os o' He Ho. rewrite (Hemb _ _ _ He Ho). by apply Nat.eqb_eq.
Qed.
Definition tidy_evb (n : nat) (e : event) : bool := match e with EvCall c _ => tidyb n c | EvRestart => true | EvCrash _ _ => false end.
Lemma tidy_evb_ok C n h : cp_embed C = None -> forallb (tidy_evb n) h = true -> Forall (tidy_ev C n) h.
Proof.
  intros HC H. apply Forall_forall. intros e He. rewrite forallb_forall in H. apply elem_of_list_In, H in He.
  destruct e; cbn in *; [by apply tidyb_ok|done..].
Qed.
(** Is there an acknowledged insert before every search? *)
Fixpoint fed_firstb (fed : bool) (h : list event) : bool :=
  match h with
  | [] => true
  | e :: h' => (match e with EvCall (CSearch _ _) _ => fed | _ => true end) && fed_firstb (fed || negb (bool_decide (acked e = []))) h'
  end.
Lemma fed_firstb_ok b h : fed_firstb b h = true -> forall h1 c r h2, h = h1 ++ EvCall c r :: h2 -> is_search c = true -> b = true \/ acked_ids h1 <> [].
Proof.
  revert b. induction h as [|e h IH]; intros b H h1 c r h2 E Hs; [by destruct h1|]. cbn [fed_firstb] in H. apply andb_true_iff in H as [H1 H2].
  destruct h1 as [|e1 h1]; injection E as -> ->.
  - destruct c; try done. by left.
  - destruct (IH _ H2 h1 c r h2 eq_refl Hs) as [Hb|Hb].
    + apply orb_true_iff in Hb as [Hb|Hb]; [by left|]. right. apply negb_true_iff, bool_decide_eq_false in Hb. unfold acked_ids. cbn. rewrite fmap_app.
      destruct (acked e1); [done|]. done.
    + right. unfold acked_ids in *. cbn. rewrite fmap_app. destruct (acked e1); [done|done].
Qed.
Lemma tidy_check C n h s :
  cp_embed C = None -> hist C empty_st h s ->
  forallb (tidy_evb n) h && fed_firstb false h && (forallb quietb h && forallb no_restartb h && (N.of_nat (hist_inserts h) <? 2 ^ 64)%N && (N.of_nat (length (log_view s)) + 1 <? 2 ^ 64)%N) = true ->
  Forall (tidy_ev C n) h /\ fed_first h /\ log_small C h s.
Proof.
  intros HC Hh H. apply andb_true_iff in H as [H H3]. apply andb_true_iff in H as [H1 H2]. split_and!.
  - by apply tidy_evb_ok.
  - intros h1 c r h2 E Hs. by destruct (fed_firstb_ok _ _ H2 h1 c r h2 E Hs).
  - by apply (quiet_check C h s HC Hh H3).
Qed.
Lemma C11_use : use_ok C11_C 1 50.
Proof.
  split; [split; cbn; lia|done|done|done|by split|apply ex_json_total].
Qed.
Example C59_case : exists h s, use_ok C11_C 1 50 /\ hist C11_C empty_st h s /\ Forall (tidy_ev C11_C 1) h /\ fed_first h /\ log_small C11_C h s /\
  hist_inserts h = 7 /\ acked_ids h <> [] /\ closed s = false.
Proof.
  destruct (script_witness C11_C C11_script
    (fun h s => (forallb (tidy_evb 1) h && fed_firstb false h &&
       (forallb quietb h && forallb no_restartb h && (N.of_nat (hist_inserts h) <? 2 ^ 64)%N && (N.of_nat (length (log_view s)) + 1 <? 2 ^ 64)%N)) &&
       bool_decide (hist_inserts h = 7) && negb (bool_decide (acked_ids h = [])) && negb (closed s))) as (h & s & Hh & H).
  { vm_compute. reflexivity. }
  apply andb_true_iff in H as [H H4]. apply andb_true_iff in H as [H H3]. apply andb_true_iff in H as [H H2].
  destruct (tidy_check C11_C 1 h s eq_refl Hh H) as (T1 & T2 & T3). exists h, s.
  apply bool_decide_eq_true_1 in H2. apply negb_true_iff, bool_decide_eq_false in H3. apply negb_true_iff in H4.
  split; [apply C11_use|]. by split_and!.
Qed.

(** ** C20, the part about an emptied collection *)
(** Missing from the property: a collection that was never filled
    (C20_empty_search_refuted), and use by several calls at a time. *)
Theorem C20_emptied_search_partial : forall C n B h s o k,
  use_ok C n B -> hist C empty_st h s -> Forall (tidy_ev C n) h -> fed_first h -> log_small C h s ->
  hist_inserts h <= B -> tidy C n (CSearch o k) -> acked_ids h <> [] -> (forall e, embed_objects C [o] <> Err e) ->
  exec get_size s = Some (s, Val 0) -> exec (semantic_search C 0 o k) s = Some (s, Val (0, [])).
Proof.
  intros C n B h s o k HU Hh Ht Hff Hl Hn Hd Hne He Hz.
  assert (Hzs : closed s = false /\ objs s = ∅).
  { unfold get_size in Hz. rewrite exec_act in Hz. apply Some_pair_inj in Hz as [_ Hz]. destruct (closed s); [done|]. apply Val_inj in Hz.
    split; [done|]. by apply map_size_empty_inv. }
  destruct Hzs as [Hcl Ho].
  destruct (C59_search_answers C n B h s o k HU Hh Ht Hff Hl Hn Hd Hne Hcl He) as (o' & m & hs & Hx & _ & -> & Hf).
  destruct hs as [|x hs]; [done|]. apply Forall_cons in Hf as [(ob & vb & v & Hob & _) _]. by rewrite Ho, lookup_empty in Hob.
Qed.
Print Assumptions C20_emptied_search_partial.

(** ** C51 Search hits match their objects *)
(** Histories with batches in any interleaving, restarts and crashes.  [h1] may
    contain anything but a Delete that failed or crashed; [h2], after the last
    restart, may contain failed Deletes too.  Missing from the property: failed
    Deletes before a restart (C51_hits_match_refuted). *)
Theorem C51_hits_match_partial : forall C h1 h2 s o k s' n hs,
  sizes_ok C -> hist C empty_st (h1 ++ h2) s -> Forall (ev_fed C) (h1 ++ h2) -> (N.of_nat (hist_inserts (h1 ++ h2)) < 2 ^ 64)%N ->
  Forall ev_safe h1 -> Forall no_reopen h2 -> exec (semantic_search C 0 o k) s = Some (s', Val (n, hs)) ->
  exists o' es, embed_objects C [o] = Val [o'] /\
    exec (hnsw_search (cp_h C) 0 (cp_fuel C) (vec_or_nil o') k) s = Some (s, Val es) /\
    n = length hs /\ Forall2 (hit_of C s) es hs /\ Forall (true_hit C s (vec_or_nil o')) hs.
Proof.
  intros C h1 h2 s o k s' n hs [Hmax Hdeg] Hh Hf Hn Hs Hr Hx. destruct (hist_par C Hmax Hdeg _ _ Hh Hf Hn) as (_ & HP & _).
  eapply search_true; [done| |done]. apply covered_aligned; [done|]. by eapply hist_covered.
Qed.
Print Assumptions C51_hits_match_partial.

Definition ev_safeb (e : event) : bool :=
  match e with
  | EvCall (CDelete _ _) (RUnit r) => match r with Val _ => true | _ => false end
  | EvCrash (CDelete _ _) _ => false
  | _ => true
  end.
Lemma ev_safeb_ok h : forallb ev_safeb h = true -> Forall ev_safe h.
Proof.
  intros H. apply Forall_forall. intros e He. rewrite forallb_forall in H. apply elem_of_list_In, H in He.
  destruct e as [[] []| |[] n]; try done. cbn in *. by destruct r as [[]| |].
Qed.
(** A history with a batch on two workers, a crash in the middle of an insert, a
    restart and deletes, one of which fails at the end; and a search with hits. *)
Definition C51_script : list sev :=
  [ SCall (CInsert true 0 (ob1 0)); SBatch (CBatch true [(ob1 1073741824, 1); (ob1 1077936128, 0)]) (1 :: replicate 10 0) 200;
    SCall (CDelete true 0); SCrash (CInsert true 0 (ob1 1065353216)) [0; 0] 0; SRestart; SCall (CInsert true 0 (ob1 1082130432));
    SCall (CDelete false 1) ].
Example C51_case : exists h1 h2 s o k,
  sizes_ok C11_C /\ hist C11_C empty_st (h1 ++ h2) s /\ Forall (ev_fed C11_C) (h1 ++ h2) /\ (N.of_nat (hist_inserts (h1 ++ h2)) < 2 ^ 64)%N /\
  Forall ev_safe h1 /\ Forall no_reopen h2 /\ hit_ids C11_C o k s = Some [4; 2]%N.
Proof.
  destruct (script_witness C11_C C51_script
    (fun h s => match h with
      | [e1; e2; e3; e4; e5; e6; EvCall (CDelete false 1) (RUnit (Err EIO))] =>
          forallb ev_fedb h && (N.of_nat (hist_inserts h) <? 2 ^ 64)%N && forallb ev_safeb [e1; e2; e3; e4; e5; e6] &&
          bool_decide (hit_ids C11_C (ob1 1082130432) 3 s = Some [4; 2]%N)
      | _ => false
      end)) as (h & s & Hh & H).
  { vm_compute. reflexivity. }
  destruct h as [|e1 [|e2 [|e3 [|e4 [|e5 [|e6 [|e7 [|? ?]]]]]]]]; try done.
  2:{ exfalso. repeat (match type of H with context [match ?x with _ => _ end] => destruct x; try done end). }
  exists [e1; e2; e3; e4; e5; e6], [e7], s, (ob1 1082130432), 3%Z.
  assert (He7 : no_reopen e7).
  { destruct e7; [done|done|done]. }
  assert (H' : forallb ev_fedb [e1; e2; e3; e4; e5; e6; e7] && (N.of_nat (hist_inserts [e1; e2; e3; e4; e5; e6; e7]) <? 2 ^ 64)%N &&
    forallb ev_safeb [e1; e2; e3; e4; e5; e6] && bool_decide (hit_ids C11_C (ob1 1082130432) 3 s = Some [4; 2]%N) = true).
  { repeat (match type of H with match ?x with _ => _ end = true => destruct x; try done end). }
  clear H. apply andb_true_iff in H' as [H H4]. apply andb_true_iff in H as [H H3]. apply andb_true_iff in H as [H1 H2].
  split; [by split|]. split_and!; [done|by apply (ev_fedb_ok C11_C [e1; e2; e3; e4; e5; e6; e7])|by apply N.ltb_lt|by apply ev_safeb_ok|by repeat constructor|by apply bool_decide_eq_true_1 in H4].
Qed.

(** A Delete whose log write failed, a restart, a search: the index still lists
    the vertex, the object is gone. *)
Theorem C51_hits_match_refuted : exists C h s o k,
  sizes_ok C /\ hist C empty_st h s /\ Forall (ev_fed C) h /\ (N.of_nat (hist_inserts h) < 2 ^ 64)%N /\
  (forall c n, EvCrash c n ∉ h) /\ exists s', exec (semantic_search C 0 o k) s = Some (s', Pan PIndex).
Proof.
  destruct (script_witness C11_C [SCall (CInsert true 0 (ob1 0)); SCall (CInsert true 0 (ob1 1065353216)); SCall (CDelete false 0); SRestart]
    (fun h s => forallb ev_fedb h && (N.of_nat (hist_inserts h) <? 2 ^ 64)%N && forallb (fun e => match e with EvCrash _ _ => false | _ => true end) h &&
       match exec (semantic_search C11_C 0 (ob1 0) 2) s with Some (_, Pan PIndex) => true | _ => false end)) as (h & s & Hh & H).
  { vm_compute. reflexivity. }
  apply andb_true_iff in H as [H H4]. apply andb_true_iff in H as [H H3]. apply andb_true_iff in H as [H1 H2].
  exists C11_C, h, s, (ob1 0), 2%Z. split; [by split|]. split_and!; [done|by apply ev_fedb_ok|by apply N.ltb_lt| |].
  - intros c n Hin. rewrite forallb_forall in H3. by apply elem_of_list_In, H3 in Hin.
  - destruct (exec _ s) as [[s' r]|] eqn:Ex; [|done]. exists s'. by destruct r as [|e|[]].
Qed.
Print Assumptions C51_hits_match_refuted.

(** ** C15 Search answers are consistent after a crash during Delete *)
(** After one-at-a-time use the collection always opens; if the crash left the
    object in place or the delete record on disk, every search answers, and
    every hit is a stored object with its own distance.  Missing from the
    property: the crash in between (C15_crashed_delete_refuted). *)
Theorem C15_crashed_delete_partial : forall C n B h s io id s1 m,
  use_ok C n B -> hist C empty_st h s -> Forall (tidy_ev C n) h -> fed_first h -> log_small C h s -> hist_inserts h <= B -> acked_ids h <> [] ->
  (N.of_nat (length (log_view s)) + 2 < 2 ^ 64)%N -> (id < 2 ^ 64)%N -> call_cut C s (CDelete io id) s1 ->
  exists s', reopen (disk_of (wal_flush_torn m s1)) = Val s' /\
    (is_Some (objs s' !! id_key id) \/ gone (wlog s') id ->
     forall o k, tidy C n (CSearch o k) -> (forall e, embed_objects C [o] <> Err e) ->
     exists o' c hs, exec (semantic_search C 0 o k) s' = Some (s', Val (c, hs)) /\ embed_objects C [o] = Val [o'] /\
       c = length hs /\ Forall (true_hit C s' (vec_or_nil o')) hs).
Proof.
  intros C n B h s io id s1 m [HP Hk HB HB64 [Hmax Hdeg] HJ] Hh Ht Hff Hl Hn Hac Hlen Hid Hcut.
  destruct (crash_delete C n B HP Hk HB HB64 Hmax Hdeg HJ h s io id s1 m Hh Ht Hff Hn Hl Hlen Hid Hcut) as (s' & Hr & En & HPI & Hen & HW).
  destruct (hist_tidy C n B false HP (seq_slack _ HP) Hk HB HB64 Hmax Hdeg HJ h s Hh Ht Hff Hn Hl) as (_ & _ & _ & _ & Ha).
  exists s'. split; [done|]. intros Hor o k [Hd Hk0] He. specialize (HW Hor).
  destruct (wf_search C n B false HP (seq_slack _ HP) Hk HB HB64 o k s' Hmax HJ Hen HW) as (r & Hx & _ & Hv); try done.
  { rewrite En. intros E2. destruct (acked_ids h) as [|i l]; [done|]. destruct (Ha i ltac:(by left)) as [v Hv]. by rewrite E2 in Hv. }
  destruct (reopen_store _ _ Hr) as (_&_&_&_&_&R6&_). destruct (Hv R6 He) as (c & hs & ->).
  destruct (search_true _ _ _ _ _ _ _ HPI (wf_al _ _ _ _ _ HW) Hx) as (o' & es & E1 & _ & E2 & _ & E3). by exists o', c, hs.
Qed.
Print Assumptions C15_crashed_delete_partial.

(** A cut Delete changes no vector and no other object. *)
Lemma delete_cut_keeps C s io id s1 : call_cut C s (CDelete io id) s1 ->
  vecs s1 = vecs s /\ forall k, k <> id_key id -> objs s1 !! k = objs s !! k.
Proof.
  intros Hc. set (R := fun s s1 : st => vecs s1 = vecs s /\ forall k, k <> id_key id -> objs s1 !! k = objs s !! k).
  assert (Rr : forall s, R s s) by done.
  assert (Rt : forall a b c, R a b -> R b c -> R a c).
  { intros a b c [A1 A2] [B1 B2]. split; [congruence|]. intros k Hk. rewrite B2, A2; done. }
  inversion Hc as [| | | |io' id' f s2 ts Hlk Hx]; subst; [done|].
  destruct (steps_rtc R Rr Rt _ _ Hx) as [H _]; [|exact H]. constructor; [|done]. unfold delete_found.
  apply steps_bind; [by apply steps_act|]. intros [o|]; [|done].
  apply steps_bind.
  { apply steps_act. intros s2. destruct (closed s2); [done|]. cbn. split; [done|]. intros k Hk. cbn. by rewrite lookup_delete_ne. }
  intros _. apply steps_bind.
  { unfold hnsw_delete. rewrite enc_delete_eq. by apply steps_act. }
  intros _. apply steps_act. intros s2. unfold wal_flush. destruct (batch s2); [done|]. destruct (in_order _ _); [|done]. by destruct io.
Qed.

(** The same for any history before it: batches in any interleaving, crashed
    inserts; a search that answers reports stored objects with their own
    distances. *)
Theorem C15_crashed_delete_hits_partial : forall C h io id m s' o k s2 c hs,
  sizes_ok C -> hist C empty_st (h ++ [EvCrash (CDelete io id) m]) s' -> Forall (ev_fed C) h -> (id < 2 ^ 64)%N ->
  (N.of_nat (hist_inserts h) < 2 ^ 64)%N -> Forall ev_safe h ->
  is_Some (objs s' !! id_key id) \/ gone (wlog s') id ->
  exec (semantic_search C 0 o k) s' = Some (s2, Val (c, hs)) ->
  exists o', embed_objects C [o] = Val [o'] /\ c = length hs /\ Forall (true_hit C s' (vec_or_nil o')) hs.
Proof.
  intros C h io id m s' o k s2 c hs [Hmax Hdeg] Hh Hf Hid Hn Hs Hor Hx.
  assert (HPI : PInv s').
  { eapply (hist_par C Hmax Hdeg); [exact Hh| |].
    - apply Forall_app; split; [done|]. constructor; [|done]. split_and!; [constructor| |done].
      intros os He%embed_length. destruct os; [constructor|done].
    - rewrite hist_inserts_snoc. cbn. lia. }
  assert (Hc : covered (log_view s') s').
  { inversion Hh as [E|h' e' t1 t2 Hh1 Hstep E]; [by destruct h|]. apply app_inj_tail in E as [-> ->]. subst.
    assert (Hc1 : covered (wlog t1) t1).
    { clear -Hh1 Hs. induction Hh1 as [|h e s2 s3 H1 IH Hstep]; [apply covered_empty|].
      apply Forall_app in Hs as [Hs He]. apply Forall_cons in He as [He _]. eapply safe_covered; [done..|]. by apply IH. }
    inversion Hstep as [| |c' n' s3 s4 Hcut Hr]; subst. destruct (delete_cut_keeps _ _ _ _ _ Hcut) as [E1 E2].
    destruct (wr_cut C _ _ _ Hcut) as (_ & _ & (l & El)).
    destruct (reopen_store _ _ Hr) as (_&_&R3&R4&_&_&R7&R8&_). cbn in R3, R4, R8.
    intros i Hi Hv. rewrite R4, E1 in Hv. destruct (decide (i = id)) as [->|Hne].
    - destruct Hor as [Ho|(r & He & Hr')]; [by left|right]. exists r. split; [done|]. by apply log_view_wlog.
    - rewrite R3, E2. 2:{ intros Ek. apply id_key_inj in Ek; done. }
      destruct (Hc1 i Hi Hv) as [Ho|(r & He & Hr')]; [by left|right]. exists r. split; [done|]. apply log_view_wlog. rewrite R8, El. set_solver. }
  destruct (search_true _ _ _ _ _ _ _ HPI (covered_aligned _ HPI Hc) Hx) as (o' & es & E1 & _ & E2 & _ & E3). by exists o'.
Qed.
Print Assumptions C15_crashed_delete_hits_partial.

(** A crash after the object was removed and before the delete record is
    written: the collection opens and the search panics. *)
Theorem C15_crashed_delete_refuted : exists C n B h s io id s1 s' o k,
  use_ok C n B /\ hist C empty_st h s /\ Forall (tidy_ev C n) h /\ fed_first h /\ log_small C h s /\ hist_inserts h <= B /\ acked_ids h <> [] /\
  (id < 2 ^ 64)%N /\ call_cut C s (CDelete io id) s1 /\
  reopen (disk_of (wal_flush_torn 1 s1)) = Val s' /\ tidy C n (CSearch o k) /\
  exists s2, exec (semantic_search C 0 o k) s' = Some (s2, Pan PIndex).
Proof.
  set (c := CDelete true 0).
  destruct (script_witness C11_C [SCall (CInsert true 0 (ob1 0)); SCall (CInsert true 0 (ob1 1065353216))]
    (fun h s => (forallb (tidy_evb 1) h && fed_firstb false h &&
       (forallb quietb h && forallb no_restartb h && (N.of_nat (hist_inserts h) <? 2 ^ 64)%N && (N.of_nat (length (log_view s)) + 1 <? 2 ^ 64)%N)) &&
       (bool_decide (hist_inserts h <= 50)) && negb (bool_decide (acked_ids h = [])) &&
       match cut_exec C11_C c (replicate 2 0) s with
       | Some s1 => match reopen (disk_of (wal_flush_torn 1 s1)) with
                    | Val s' => match exec (semantic_search C11_C 0 (ob1 0) 2) s' with Some (_, Pan PIndex) => true | _ => false end
                    | _ => false
                    end
       | None => false
       end)) as (h & s & Hh & H).
  { vm_compute. reflexivity. }
  apply andb_true_iff in H as [H H4]. apply andb_true_iff in H as [H H3]. apply andb_true_iff in H as [H H2].
  destruct (tidy_check C11_C 1 h s eq_refl Hh H) as (T1 & T2 & T3).
  apply bool_decide_eq_true_1 in H2. apply negb_true_iff, bool_decide_eq_false in H3.
  destruct (cut_exec C11_C c (replicate 2 0) s) as [s1|] eqn:Ec; [|done].
  destruct (reopen (disk_of (wal_flush_torn 1 s1))) as [s'| |] eqn:Er; [|done..].
  destruct (exec _ s') as [[s2 r]|] eqn:Ex; [|done].
  exists C11_C, 1, 50, h, s, true, 0%N, s1, s', (ob1 0), 2%Z. split; [apply C11_use|].
  split_and!; [done..|by eapply cut_exec_cut|done|by apply tidyb_ok|]. exists s2. by destruct r as [|e|[]].
Qed.
Print Assumptions C15_crashed_delete_refuted.

(** The hypotheses of the two partial theorems, with the delete record on disk
    and a search that has a hit. *)
Example C15_case : exists h s s1 s',
  use_ok C11_C 1 50 /\ hist C11_C empty_st h s /\ Forall (tidy_ev C11_C 1) h /\ fed_first h /\ log_small C11_C h s /\ hist_inserts h <= 50 /\ acked_ids h <> [] /\
  (N.of_nat (length (log_view s)) + 2 < 2 ^ 64)%N /\ call_cut C11_C s (CDelete true 0) s1 /\
  reopen (disk_of (wal_flush_torn 1 s1)) = Val s' /\ gone (wlog s') 0 /\ objs s' !! id_key 0 = None /\ hit_ids C11_C (ob1 0) 2 s' = Some [1]%N.
Proof.
  set (c := CDelete true 0).
  destruct (script_witness C11_C [SCall (CInsert true 0 (ob1 0)); SCall (CInsert true 0 (ob1 1065353216))]
    (fun h s => (forallb (tidy_evb 1) h && fed_firstb false h &&
       (forallb quietb h && forallb no_restartb h && (N.of_nat (hist_inserts h) <? 2 ^ 64)%N && (N.of_nat (length (log_view s)) + 1 <? 2 ^ 64)%N)) &&
       (bool_decide (hist_inserts h <= 50)) && negb (bool_decide (acked_ids h = [])) && (N.of_nat (length (log_view s)) + 2 <? 2 ^ 64)%N &&
       match cut_exec C11_C c (replicate 3 0) s with
       | Some s1 => match reopen (disk_of (wal_flush_torn 1 s1)) with
                    | Val s' => match enc_delete 0 with Val r => bool_decide (r ∈ wlog s') | _ => false end && bool_decide (objs s' !! id_key 0 = None) &&
                                bool_decide (hit_ids C11_C (ob1 0) 2 s' = Some [1]%N)
                    | _ => false
                    end
       | None => false
       end)) as (h & s & Hh & H).
  { vm_compute. reflexivity. }
  apply andb_true_iff in H as [H H5]. apply andb_true_iff in H as [H H4]. apply andb_true_iff in H as [H H3]. apply andb_true_iff in H as [H H2].
  destruct (tidy_check C11_C 1 h s eq_refl Hh H) as (T1 & T2 & T3).
  apply bool_decide_eq_true_1 in H2. apply negb_true_iff, bool_decide_eq_false in H3. apply N.ltb_lt in H4.
  destruct (cut_exec C11_C c (replicate 3 0) s) as [s1|] eqn:Ec; [|done].
  destruct (reopen (disk_of (wal_flush_torn 1 s1))) as [s'| |] eqn:Er; [|done..].
  apply andb_true_iff in H5 as [H5 H7]. apply andb_true_iff in H5 as [H5 H6].
  exists h, s, s1, s'. split; [apply C11_use|].
  split_and!; [done..|by eapply cut_exec_cut|done| |by apply bool_decide_eq_true_1 in H6|by apply bool_decide_eq_true_1 in H7].
  destruct (enc_delete 0) as [r| |] eqn:Ee; [|done..]. exists r. split; [done|]. by apply bool_decide_eq_true_1 in H5.
Qed.
