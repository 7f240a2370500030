(** Any number of goroutines using one collection: their calls behave as if
    made one at a time (C61), also when the process dies (C62); what the
    callers can rely on (C63); reading changes nothing (C64). *)
From Coq Require Import SpecFloat.
From stdpp Require Import relations.
From Verif Require Import GoBase FloatModel HeapModel ProgModel StateModel WalModel HnswModel StoreModel CollModel CallModel LinModel
  ProofBase CodecProofs WpProofs StepProofs CallProofs HistProofs HistRun StoreView PropStore CollWf LinProofs LinCrash LinTrace LinRun.
Open Scope nat_scope.

(** ** C61 Concurrent calls are linearizable *)
(** From any state of a collection, whatever is in its files: *)
Theorem C61_any_state_partial : forall C s n vs s' ts',
  con_run C (s, replicate n TIdle) vs (s', ts') -> ~ search_panicked vs ts' ->
  exists sa as' es, at_run C (fun _ => True) (s, replicate n AIdle) vs es (sa, as') /\
    (Forall (fun t => ~ holds_x t) ts' -> sa = s') /\
    (forall i, ts' !! i = Some TIdle -> as' !! i = Some AIdle).
Proof.
  intros C s n vs s' ts' Hr Hp. destruct (sim_run C (fun _ => True) s n vs _ I (or_introl (fun _ _ => I)) Hr) as [(sa & es & as' & Ha & HR)|?]; [|done].
  cbn in HR. exists sa, as', es. split; [done|]. split; [by eapply nobody_x|].
  intros i Hi. destruct (rel_at _ _ _ _ _ _ _ HR Hi) as (a & Ha' & Hr'). cbn in Hr'. by subst a.
Qed.
Print Assumptions C61_any_state_partial.

(** Of the calls of any number of goroutines on a collection with a past [h],
    each can be given a moment between its call and its return, such that all
    replies and the final state are those of the calls made one at a time in
    the order of these moments.  Partial: GetSize, which takes no lock, may
    count more objects than there are at its moment, namely some that a batch
    is about to add (the theorem after this one); and no search has panicked
    (it would leave the mutex of a vertex locked). *)
Theorem C61_linearizable_partial : forall C h s n vs s' ts',
  hist C empty_st h s -> (cp_maxval C < 2 ^ 32)%N -> json_total (cp_json C) ->
  con_run C (s, replicate n TIdle) vs (s', ts') -> ~ search_panicked vs ts' ->
  exists sa as' es, at_run C (eq CSize) (s, replicate n AIdle) vs es (sa, as') /\
    hist C empty_st (h ++ events es) sa /\
    (Forall (fun t => ~ holds_x t) ts' -> sa = s') /\
    (forall i, ts' !! i = Some TIdle -> as' !! i = Some AIdle).
Proof.
  intros C h s n vs s' ts' Hh Hm Hj Hr Hp. pose proof (hist_enc C h _ _ Hh (enc_empty C)) as He0.
  destruct (sim_run C (eq CSize) s n vs _ eq_refl (or_intror (conj He0 (conj Hm Hj))) Hr) as [(sa & es & as' & Ha & HR)|?]; [|done].
  cbn in HR. exists sa, as', es. split; [done|]. split; [|split; [by eapply nobody_x|]].
  - eapply hist_trans; [exact Hh|]. apply (at_run_hist _ _ _ _ _ Ha).
  - intros i Hi. destruct (rel_at _ _ _ _ _ _ _ HR Hi) as (a & Ha' & Hr'). cbn in Hr'. by subst a.
Qed.
Print Assumptions C61_linearizable_partial.

(** A Delete that found the object before another Delete took it away only
    writes the same tombstone to the log again. *)
Theorem C61_second_delete : forall io id s s' r,
  objs s !! id_key id = None -> id ∈ deleted s ->
  exec (delete_rest io id) s = Some (s', r) ->
  s' = set_wal (batch s') (wseq s') (wlog s') s.
Proof.
  intros io id s s' r Ho Hd. unfold delete_rest, delete_object. rewrite exec_bind, exec_act.
  destruct (closed s); [intros [= <- <-]; by destruct s|]. rewrite exec_bind.
  unfold hnsw_delete. rewrite enc_delete_eq, exec_act. unfold flush. rewrite exec_act, (delete_notin _ _ Ho).
  assert (({[id]} ∪ deleted s) = deleted s) as E by set_solver.
  unfold wal_flush. cbn. rewrite E. repeat case_match; intros [= <- <-]; by destruct s.
Qed.
Print Assumptions C61_second_delete.

(** The full statement: the effects are those of the calls made on their own.
    It is false because of GetSize. *)
Lemma at_run_strict C m vs es m' : at_run C (fun _ => False) m vs es m' -> hist C m.1 (uncurry EvCall <$> es) m'.1.
Proof.
  induction 1 as [m|m v1 es1 m1 v2 es2 m2 Hr IH Hs]; [constructor|]. rewrite fmap_app.
  inversion Hs as [s1 ts j c Hj|s1 ts j c s' r Hj He|s1 ts j r Hj]; subst; cbn [fst] in *; try (cbn; by rewrite app_nil_r).
  cbn. econstructor; [exact IH|]. apply StepCall. by inversion He.
Qed.

Definition lin_C : cparams := CParams (HParams 4 4 8 8 true Euclidean) [] None ex_json 65536 1 50.
Definition two_objects : call := CBatch true [(Object 0 ∅ (Some [0%N]), 0); (Object 0 ∅ (Some [1065353216%N]), 0)].
Definition size_is_one : list vis := [VCall 0 two_objects; VCall 1 CSize; VRet 1 (RSize (Val 1))].
Lemma rtc_mstep_length {S A} (m m' : machine S A) : rtc mstep m m' -> length m'.2 = length m.2.
Proof. induction 1 as [|m m1 m2 Hs _ IH]; [done|]. rewrite IH. inversion Hs; subst. cbn. by rewrite insert_length. Qed.
Lemma one_exec {A} (p : prog st A) s s' r : rtc mstep (s, [p]) (s', [Done r]) -> exec p s = Some (s', r).
Proof.
  remember (s, [p]) as m eqn:Em. remember (s', [Done r]) as m' eqn:Em'. intros Hr. revert s p Em.
  induction Hr as [m|m m1 m2 Hs Hr IH]; intros s p ->; [by injection Em' as -> ->|].
  inversion Hs as [s0 ts0 i f s2 p2 Hi Hf]; subst. destruct i as [|i]; [|done]. injection Hi as ->.
  cbn [exec]. rewrite Hf. by eapply IH.
Qed.
Lemma two_objects_size s r : call_run lin_C empty_st two_objects s r -> store_size s = 2.
Proof.
  intros H. inversion H as [|io ol r0 Hp Hv|io ol os s1 r0 rs Hp Hb| | | | | | | | ]; subst.
  { exfalso. revert Hv. vm_compute. intros Hv. by eapply Hv. }
  injection Hp as <-.
  assert (forall s1 rs, rtc mstep (empty_st, batch_threads lin_C (zip [Object 0 ∅ (Some [0%N]); Object 0 ∅ (Some [1065353216%N])] [0; 0])) (s1, Done <$> rs) -> store_size s1 = 2) as Hrun.
  { intros s1 rs1 Hr. pose proof (rtc_mstep_length _ _ Hr) as Hl. destruct rs1 as [|r1 [|? ?]]; try done. apply one_exec in Hr.
    assert (option_map (fun x => store_size x.1) (exec (worker lin_C 1 (chunk (cp_workers lin_C) 0 (zip [Object 0 ∅ (Some [0%N]); Object 0 ∅ (Some [1065353216%N])] [0; 0]))) empty_st) = Some 2) as E.
    { vm_compute. reflexivity. }
    clear -Hr E.
    rewrite Hr in E. by injection E. }
  inversion Hb as [s1 rs1 s2 r1 Hr Hg Hf|s1 rs1 e Hr Hg]; subst.
  - apply Hrun in Hr. destruct (flush_keeps true s1) as (E & _). rewrite Hf in E. cbn in E. unfold store_size in *. by rewrite E.
  - by eapply Hrun.
Qed.

Theorem C61_linearizable_refuted : exists C n vs m,
  (cp_maxval C < 2 ^ 32)%N /\ json_total (cp_json C) /\
  con_run C (empty_st, replicate n TIdle) vs m /\ ~ search_panicked vs m.2 /\
  ~ exists es m', at_run C (fun _ => False) (empty_st, replicate n AIdle) vs es m'.
Proof.
  assert (option_map fst (con_exec lin_C [(6, 0, two_objects, 0); (5, 1, CSize, 0)] (empty_st, [TIdle; TIdle])) = Some size_is_one) as Hv.
  { vm_compute. reflexivity. }
  assert (option_map (fun x => forallb (fun t => match t with TX _ _ | TIdle => true | _ => false end) x.2.2)
    (con_exec lin_C [(6, 0, two_objects, 0); (5, 1, CSize, 0)] (empty_st, [TIdle; TIdle])) = Some true) as Ht.
  { vm_compute. reflexivity. }
  destruct (con_exec lin_C _ _) as [[vs m]|] eqn:Hm; [|discriminate Hv]. apply (inj Some) in Hv, Ht. cbn [fst snd] in Hv, Ht. subst vs.
  exists lin_C, 2, size_is_one, m. split; [done|]. split; [apply ex_json_total|]. split; [by eapply con_exec_run|]. clear Hm. split.
  - intros [(i & z & Hz)|(i & t & Hi & Hp)].
    + clear -Hz. unfold size_is_one in Hz. set_solver.
    + rewrite forallb_forall in Ht. specialize (Ht t (proj1 (elem_of_list_In _ _) (elem_of_list_lookup_2 _ _ _ Hi))). by destruct t.
  - intros (es & m' & Ha). pose proof (at_run_strict _ _ _ _ _ Ha) as Hh. cbn [fst] in Hh.
    destruct (at_run_perm _ _ _ _ _ _ _ Ha) as [Hc _]. cbn in Hc.
    destruct (at_run_call_return lin_C (fun _ => False) (empty_st, replicate 2 AIdle) [VCall 0 two_objects] 1 CSize [] (RSize (Val 1)) [] es m' Ha)
      as (e1 & e2 & e3 & m1 & m2 & E & Hin & _); [by intros r ?%elem_of_nil|].
    clear -Hc Hh E Hin. assert (Hsz : (CSize, RSize (Val 1)) ∈ es) by set_solver. clear E Hin e1 e2 e3.
    assert (forall s1 s2 : st, ev_step lin_C s1 (EvCall CSize (RSize (Val 1))) s2 -> store_size s1 = 1) as Hone.
    { intros s1 s2 Hs. inversion Hs as [c s3 r Hr| |]; subst. inversion Hr as [| | | | | | | |s3 r Hx| | ]; subst.
      unfold get_size in Hx. rewrite exec_act in Hx. destruct (closed s1); [done|]. by injection Hx. }
    assert (Hl : length es <= 2) by (apply Permutation_length in Hc; rewrite app_length, fmap_length in Hc; cbn in Hc; lia).
    destruct es as [|[c1 r1] [|[c2 r2] [|? ?]]]; [by apply elem_of_nil in Hsz| | |cbn in Hl; lia].
    + apply elem_of_list_singleton in Hsz. injection Hsz as <- <-. cbn in Hh. apply hist_one in Hh. by apply Hone in Hh.
    + assert (pending m'.2 = []) as Ep.
      { apply Permutation_length in Hc. rewrite app_length in Hc. cbn in Hc. destruct (pending m'.2); [done|cbn in Hc; lia]. }
      rewrite Ep in Hc. cbn in Hc. symmetry in Hc. apply Permutation_length_2_inv in Hc.
      change (uncurry EvCall <$> [(c1, r1); (c2, r2)]) with ([] ++ EvCall c1 r1 :: [EvCall c2 r2]) in Hh.
      destruct (hist_split _ _ _ _ _ _ Hh) as (s1 & s2 & H1 & H2 & H3). apply hist_one in H3.
      inversion H1 as [|h e sa sb _ _ Eh]; subst; [|by destruct h].
      destruct Hc as [Hc|Hc]; (injection Hc as Hc1 Hc2; subst c1 c2).
      * assert (r2 = RSize (Val 1)) as ->. { apply elem_of_cons in Hsz as [?|Hsz]; [done|]. apply elem_of_list_singleton in Hsz. by injection Hsz. }
        apply Hone in H3. inversion H2 as [c s3 r Hr| |]; subst. apply two_objects_size in Hr. congruence.
      * assert (r1 = RSize (Val 1)) as ->. { apply elem_of_cons in Hsz as [Hsz|Hsz]; [by injection Hsz|]. by apply elem_of_list_singleton in Hsz. }
        apply Hone in H2. done.
Qed.
Print Assumptions C61_linearizable_refuted.

(** Three goroutines: two objects are inserted, then two goroutines both find
    object 0 and delete it one after the other, while a third searches. *)
Definition case_trace : list vis :=
  let A := CInsert true 0 (Object 0 ∅ (Some [0%N])) in
  let B := CInsert true 1 (Object 0 ∅ (Some [1065353216%N])) in
  let S := CSearch (Object 0 ∅ (Some [0%N])) 2 in
  [ VCall 0 A; VRet 0 (RIns (Val (Object 0 ∅ (Some [0%N]))));
    VCall 1 B; VRet 1 (RIns (Val (Object 1 ∅ (Some [1065353216%N]))));
    VCall 0 (CDelete true 0); VCall 1 (CDelete true 0); VCall 2 S;
    VRet 2 (RSearch (Val (2, [Hit 0 ∅ (S754_zero false); Hit 1 ∅ (S754_finite false 8388608 (-23))])));
    VRet 1 (RUnit (Val tt)); VRet 0 (RUnit (Val tt));
    VCall 2 (CGet [0; 1]%N); VRet 2 (RGet (Val [Object 1 ∅ (Some [1065353216%N])])) ].
Definition case_sched : list (nat * nat * call * nat) :=
  let A := CInsert true 0 (Object 0 ∅ (Some [0%N])) in
  let B := CInsert true 1 (Object 0 ∅ (Some [1065353216%N])) in
  let S := CSearch (Object 0 ∅ (Some [0%N])) 2 in
  [ (200, 0, A, 0); (200, 1, B, 0); (2, 0, CDelete true 0, 0); (2, 1, CDelete true 0, 0); (4, 2, S, 0);
    (200, 0, CSize, 0); (200, 2, S, 0); (200, 1, CSize, 0); (200, 0, CSize, 0); (200, 2, CGet [0; 1]%N, 0) ].
Lemma case_run : exists m, con_run ex_C (empty_st, replicate 3 TIdle) case_trace m /\ m.2 = replicate 3 TIdle.
Proof.
  assert (option_map (fun x => (x.1, x.2.2)) (con_exec ex_C case_sched (empty_st, replicate 3 TIdle)) = Some (case_trace, replicate 3 TIdle)) as Hv.
  { vm_compute. reflexivity. }
  destruct (con_exec ex_C _ _) as [[vs m]|] eqn:Hm; [|discriminate Hv]. apply (inj Some) in Hv. cbn [fst snd] in Hv.
  apply pair_inj in Hv as [<- Hv]. exists m. split; [by eapply con_exec_run|done].
Qed.
Example C61_case : exists m,
  hist ex_C empty_st [] empty_st /\ (cp_maxval ex_C < 2 ^ 32)%N /\ json_total (cp_json ex_C) /\
  con_run ex_C (empty_st, replicate 3 TIdle) case_trace m /\ ~ search_panicked case_trace m.2.
Proof.
  destruct case_run as (m & Hr & Hm). exists m. split; [constructor|]. split; [done|]. split; [apply ex_json_total|]. split; [done|].
  rewrite Hm. intros [(i & z & Hz)|(i & t & Hi & Hp)].
  - clear -Hz. unfold case_trace in Hz. repeat (apply elem_of_cons in Hz as [Hz|Hz]; [discriminate Hz|]). by apply elem_of_nil in Hz.
  - apply lookup_replicate in Hi as [-> _]. done.
Qed.

(** ** C62 A crash during concurrent calls *)
(** Whenever the process dies, what it leaves behind is what a single call
    leaves that is cut short after complete calls made one at a time; those
    include every Insert and batch that has returned. *)
Theorem C62_crash_in_concurrent_use : forall C h s n vs s' ts',
  hist C empty_st h s -> con_run C (s, replicate n TIdle) vs (s', ts') -> ~ search_panicked vs ts' ->
  exists es sb c, hist C empty_st (h ++ (uncurry EvCall <$> es)) sb /\ call_cut C sb c s' /\
    (forall i r, VRet i r ∈ vs -> ins_reply r -> exists c', (c', r) ∈ es) /\
    es.*1 ⊆+ called vs /\ (c = CSize \/ es.*1 ++ [c] ⊆+ called vs) /\
    (forall k s2, reopen (disk_of (wal_flush_torn k s')) = Val s2 ->
      hist C empty_st (h ++ (uncurry EvCall <$> es) ++ [EvCrash c k]) s2).
Proof.
  intros C h s n vs s' ts' Hh Hr Hp. destruct (crel_run _ _ _ _ _ Hr) as [(es & sb & HR)|?]; [|done]. cbn [fst snd] in HR.
  destruct (crel_cut _ _ _ _ _ _ _ HR) as (c & Hc & Hcl). exists es, sb, c.
  assert (Hh2 : hist C empty_st (h ++ (uncurry EvCall <$> es)) sb) by (eapply hist_trans; [exact Hh|apply HR]).
  split; [done|]. split; [done|]. split; [apply HR|].
  split; [etrans; [|apply (cr_called _ _ _ _ _ _ _ HR)]; by apply submseteq_inserts_r|]. split; [done|].
  intros k s2 Hk. rewrite app_assoc. econstructor; [exact Hh2|]. by econstructor.
Qed.
Print Assumptions C62_crash_in_concurrent_use.

(** The inserts asked for in a trace, and whether it asks to delete [id]. *)
Definition asked (vs : list vis) : nat := sum_list ((fun c => length (submitted c)) <$> called vs).
Definition asks_delete (id : N) (vs : list vis) : Prop := exists i io id', VCall i (CDelete io id') ∈ vs /\ u64 id' = id.
Definition vacked (r : reply) : list object := acked (EvCall CSize r).
Lemma sum_submseteq l1 l2 : l1 ⊆+ l2 -> sum_list l1 <= sum_list l2.
Proof. induction 1; cbn; lia. Qed.
Lemma inserts_asked (es : list (call * reply)) vs : es.*1 ⊆+ called vs -> hist_inserts (uncurry EvCall <$> es) <= asked vs.
Proof.
  intros H. unfold hist_inserts, asked. rewrite <- list_fmap_compose.
  assert (E : (ev_inserts ∘ uncurry EvCall) <$> es = (fun c => length (submitted c)) <$> es.*1).
  { rewrite <- list_fmap_compose. apply list_fmap_ext. by intros i [c r] _. }
  rewrite E. apply sum_submseteq. by apply fmap_submseteq.
Qed.
Lemma no_delete id (es : list (call * reply)) vs : ~ asks_delete id vs -> (forall c r, (c, r) ∈ es -> c ∈ called vs) ->
  existsb (ev_deletes id) (uncurry EvCall <$> es) = false.
Proof.
  intros Hn Hc. apply not_true_is_false. rewrite existsb_exists. intros (e & He & Hd).
  apply elem_of_list_In, elem_of_list_fmap in He as ([c r] & -> & He). cbn in Hd. destruct c; try done.
  apply bool_decide_eq_true_1 in Hd. specialize (Hc _ _ He). apply called_in in Hc as [i Hi]. apply Hn. eexists _, _, _. eauto.
Qed.

(** An object whose Insert (or batch) has returned is found after the crash. *)
Theorem C62_acknowledged_survives : forall C h s n vs s' ts' k s2 i r o,
  hist C empty_st h s -> con_run C (s, replicate n TIdle) vs (s', ts') -> ~ search_panicked vs ts' ->
  (N.of_nat (hist_inserts h + asked vs) < 2 ^ 64)%N -> (cp_maxval C < 2 ^ 32)%N ->
  reopen (disk_of (wal_flush_torn k s')) = Val s2 ->
  VRet i r ∈ vs -> o ∈ vacked r -> ~ asks_delete (o_id o) vs ->
  json_ok (cp_json C) (o_props o) -> Forall (fun f => (f < 2 ^ 32)%N) (default [] (o_vec o)) ->
  exec (CollModel.get C [o_id o]) s2 = Some (s2, Val [o]).
Proof.
  intros C h s n vs s' ts' k s2 i r o Hh Hr Hp Hb Hm Hre Hv Ho Hn Hj Hf.
  destruct (C62_crash_in_concurrent_use C h s n vs s' ts' Hh Hr Hp) as (es & sb & c & Hh1 & Hcut & Hack & Hsub & Hc & Hh2).
  specialize (Hh2 k s2 Hre).
  assert (exists c', (c', r) ∈ es) as (c' & Hin).
  { apply (Hack i r Hv). unfold vacked in Ho. destruct r as [[]|[] rs| | | | ]; try (by apply elem_of_nil in Ho); done. }
  assert (Hcl : forall c r, (c, r) ∈ es -> c ∈ called vs).
  { intros c0 r0 H0. eapply elem_of_submseteq; [|exact Hsub]. apply elem_of_list_fmap. by exists (c0, r0). }
  apply elem_of_list_split in Hin as (e1 & e2 & ->).
  assert (E : h ++ (uncurry EvCall <$> e1 ++ (c', r) :: e2) ++ [EvCrash c k] = (h ++ (uncurry EvCall <$> e1)) ++ EvCall c' r :: ((uncurry EvCall <$> e2) ++ [EvCrash c k])).
  { rewrite fmap_app. cbn. by rewrite <- !app_assoc. }
  rewrite E in Hh2.
  destruct (reopen_store _ _ Hre) as (_ & _ & _ & _ & _ & Hcl2 & _).
  refine (proj1 (C05_read_your_writes C _ _ _ _ _ o Hh2 _ Hcl2 Hm Ho _ Hj Hf)).
  - rewrite <- E. rewrite !hist_inserts_app.
    assert (hist_inserts (uncurry EvCall <$> e1 ++ (c', r) :: e2) + hist_inserts [EvCrash c k] <= asked vs); [|lia].
    destruct Hc as [->|Hc].
    + pose proof (inserts_asked _ _ Hsub). cbn. lia.
    + change (e1 ++ (c', r) :: e2).*1 with (@fst call reply <$> (e1 ++ (c', r) :: e2)) in Hc.
      pose proof (inserts_asked ((e1 ++ (c', r) :: e2) ++ [(c, RUnit (Val tt))]) vs) as H. rewrite fmap_app in H. specialize (H Hc).
      rewrite fmap_app, hist_inserts_app in H. exact H.
  - rewrite existsb_app. apply orb_false_iff. split.
    + apply (no_delete _ _ vs Hn). intros c0 r0 H0. apply (Hcl c0 r0). set_solver.
    + destruct Hc as [->|Hc]; [done|].
      pose proof (no_delete (o_id o) [(c, RUnit (Val tt))] vs Hn) as H. cbn in H |- *. apply H.
      intros c0 r0 H0%elem_of_list_singleton. injection H0 as -> _. eapply elem_of_submseteq; [|exact Hc]. set_solver.
Qed.
Print Assumptions C62_acknowledged_survives.

(** The process dies when goroutine 0 has inserted an object, goroutine 1 is in
    the middle of an Insert and goroutine 2 in the middle of a batch's wait for
    c.mu. *)
Definition crash_A : object := Object 0 {["a"%string := JNum 1]} (Some [0%N]).
Definition crash_B : object := Object 0 {["a"%string := JNum 2]} (Some [1065353216%N]).
Definition crash_sched : list (nat * nat * call * nat) :=
  [ (200, 0, CInsert true 0 crash_A, 0); (4, 1, CInsert true 1 crash_B, 0); (5, 2, CBatch true [(crash_B, 0); (crash_A, 0)], 0) ].
Definition crash_trace : list vis :=
  [ VCall 0 (CInsert true 0 crash_A); VRet 0 (RIns (Val crash_A)); VCall 1 (CInsert true 1 crash_B);
    VCall 2 (CBatch true [(crash_B, 0); (crash_A, 0)]) ].
Example C62_case : exists m s2,
  hist ex_C_a empty_st [] empty_st /\ con_run ex_C_a (empty_st, replicate 3 TIdle) crash_trace m /\ ~ search_panicked crash_trace m.2 /\
  (N.of_nat (hist_inserts [] + asked crash_trace) < 2 ^ 64)%N /\ (cp_maxval ex_C_a < 2 ^ 32)%N /\
  reopen (disk_of (wal_flush_torn 0 m.1)) = Val s2 /\ size (objs m.1) = 2 /\ size (vecs m.1) = 1 /\
  VRet 0 (RIns (Val crash_A)) ∈ crash_trace /\ crash_A ∈ vacked (RIns (Val crash_A)) /\ ~ asks_delete (o_id crash_A) crash_trace /\
  json_ok (cp_json ex_C_a) (o_props crash_A) /\ Forall (fun f => (f < 2 ^ 32)%N) (default [] (o_vec crash_A)).
Proof.
  assert (option_map fst (con_exec ex_C_a crash_sched (empty_st, replicate 3 TIdle)) = Some crash_trace) as Hv.
  { vm_compute. reflexivity. }
  assert (option_map (fun x => (match reopen (disk_of (wal_flush_torn 0 x.2.1)) with Val _ => true | _ => false end,
      (size (objs x.2.1), size (vecs x.2.1)), forallb (fun t => match t with TX _ _ | TIdle | TCall _ => true | _ => false end) x.2.2))
    (con_exec ex_C_a crash_sched (empty_st, replicate 3 TIdle)) = Some (true, (2, 1), true)) as Ht.
  { vm_compute. reflexivity. }
  destruct (con_exec ex_C_a _ _) as [[vs m]|] eqn:Hm; [|discriminate Hv]. apply (inj Some) in Hv, Ht. cbn [fst snd] in Hv, Ht. subst vs.
  apply con_exec_run in Hm. apply pair_inj in Ht as [Ht Hts]. apply pair_inj in Ht as [Hre Hsz]. apply pair_inj in Hsz as [Hs1 Hs2].
  destruct (reopen (disk_of (wal_flush_torn 0 m.1))) as [s2| |] eqn:Er; [|discriminate Hre..]. exists m, s2.
  split; [constructor|]. split; [exact Hm|]. clear Hm. split.
  { intros [(i & z & Hz)|(i & t & Hi & Hp)].
    - clear -Hz. unfold crash_trace in Hz. repeat (apply elem_of_cons in Hz as [Hz|Hz]; [discriminate Hz|]). by apply elem_of_nil in Hz.
    - rewrite forallb_forall in Hts. specialize (Hts t (proj1 (elem_of_list_In _ _) (elem_of_list_lookup_2 _ _ _ Hi))). by destruct t. }
  split; [done|]. split; [done|]. split; [done|]. split; [done|]. split; [done|]. split; [right; left|]. split; [left|].
  split; [|split; [|repeat constructor]].
  - intros (i & io & id & Hin & _). clear -Hin. unfold crash_trace in Hin. repeat (apply elem_of_cons in Hin as [Hin|Hin]; [discriminate Hin|]). by apply elem_of_nil in Hin.
  - exists [123; 34; 97; 34; 58; 49; 125]%N. split; vm_compute; reflexivity.
Qed.

(** ** C63 What concurrent callers can rely on *)
Lemma events_inserts es : hist_inserts (events es) = hist_inserts (uncurry EvCall <$> es).
Proof.
  induction es as [|[c r] es IH]; [done|]. unfold events in *. rewrite filter_cons. destruct (decide _) as [Hd|Hd]; cbn.
  - unfold hist_inserts in *. cbn. by rewrite IH.
  - cbn in Hd. by destruct c.
Qed.
Lemma at_run_sub C bad s n vs es m : at_run C bad (s, replicate n AIdle) vs es m -> es.*1 ⊆+ called vs.
Proof. intros Ha. destruct (at_run_perm _ _ _ _ _ _ _ Ha) as [H _]. rewrite H. by apply submseteq_inserts_r. Qed.

Lemma at_run_size C bad m vs es m' r : at_run C bad m vs es m' -> (CSize, r) ∈ es -> exists x, r = RSize x.
Proof.
  intros Ha. induction Ha as [m|m v1 es1 m1 v2 es2 m2 Hr IH Hs]; [by intros ?%elem_of_nil|]. intros [H|H]%elem_of_app; [by apply IH|].
  inversion Hs as [s1 ts j c Hj|s1 ts j c s' r' Hj He|s1 ts j r' Hj]; subst; try (by apply elem_of_nil in H).
  apply elem_of_list_singleton in H. injection H as <- <-. inversion He as [c s2 r2 Hc| |]; subst; [|by eexists].
  inversion Hc. by eexists.
Qed.

Lemma events_cons c r es : is_size c = false -> events ((c, r) :: es) = EvCall c r :: events es.
Proof. intros H. unfold events. by rewrite filter_cons_True. Qed.
Lemma join_app {A} (l k : list (list A)) : mjoin (l ++ k) = mjoin l ++ mjoin k.
Proof. induction l as [|x l IH]; [done|]. change (x ++ mjoin (l ++ k) = (x ++ mjoin l) ++ mjoin k). by rewrite IH, app_assoc. Qed.

(** No two objects get the same id, whoever inserts them and whenever. *)
Theorem C63_concurrent_ids_distinct : forall C h s n vs s' ts',
  hist C empty_st h s -> (cp_maxval C < 2 ^ 32)%N -> json_total (cp_json C) ->
  con_run C (s, replicate n TIdle) vs (s', ts') -> ~ search_panicked vs ts' ->
  (N.of_nat (hist_inserts h + asked vs) < 2 ^ 64)%N ->
  NoDup (acked_ids h ++ (o_id <$> mjoin (vacked <$> returned vs))).
Proof.
  intros C h s n vs s' ts' Hh Hm Hj Hr Hp Hb.
  destruct (C61_linearizable_partial C h s n vs s' ts' Hh Hm Hj Hr Hp) as (sa & as' & es & Ha & Hh' & _).
  assert (Hbe : (N.of_nat (hist_inserts (h ++ events es)) < 2 ^ 64)%N).
  { rewrite hist_inserts_app, events_inserts. pose proof (inserts_asked es vs (at_run_sub _ _ _ _ _ _ _ Ha)). lia. }
  pose proof (C01_ids_never_reused C _ _ Hh' Hbe) as Hnd. unfold acked_ids in Hnd |- *. rewrite fmap_app, join_app, fmap_app in Hnd.
  destruct (at_run_perm _ _ _ _ _ _ _ Ha) as [_ Hperm].
  assert (E : mjoin (acked <$> events es) = mjoin (vacked <$> es.*2)).
  { assert (Hsz : forall r, (CSize, r) ∈ es -> exists x, r = RSize x) by (intros r; by apply (at_run_size _ _ _ _ _ _ _ Ha)).
    clear -Hsz. induction es as [|[c r] es IH]; [done|].
    assert (IH' : mjoin (acked <$> events es) = mjoin (vacked <$> es.*2)) by (apply IH; intros r0 H0; apply Hsz; by right).
    destruct (is_size c) eqn:Ec.
    - destruct c; try done. destruct (Hsz r) as [x ->]; [left|]. unfold events. rewrite filter_cons_False by done. exact IH'.
    - rewrite events_cons by done. change (vacked r ++ mjoin (acked <$> events es) = vacked r ++ mjoin (vacked <$> es.*2)). by rewrite IH'. }
  rewrite E, Hperm, fmap_app, join_app, fmap_app, app_assoc in Hnd. by apply NoDup_app in Hnd as [Hnd _].
Qed.
Print Assumptions C63_concurrent_ids_distinct.

(** Where the replies of two calls, one made after the other returned, are in
    the order of the effects. *)
Lemma ret_effect C bad s n vs1 i r vs2 es m :
  at_run C bad (s, replicate n AIdle) (vs1 ++ VRet i r :: vs2) es m ->
  exists es1 es2 c m1, es = es1 ++ es2 /\ (c, r) ∈ es1 /\ at_run C bad m1 vs2 es2 m.
Proof.
  intros Ha. destruct (at_run_mid _ _ _ _ _ _ _ _ Ha) as (e1 & m1 & m2 & e2 & -> & H1 & H2 & H3).
  destruct (at_run_perm _ _ _ _ _ _ _ H1) as [_ Hp]. inversion H2 as [| |s1 ts j r' Hj]; subst. cbn [snd] in Hp.
  assert (Hin : r ∈ e1.*2).
  { rewrite Hp. apply elem_of_app. right. apply elem_of_list_omap. exists (ADone r). split; [by eapply elem_of_list_lookup_2|done]. }
  apply elem_of_list_fmap in Hin as ([c r'] & -> & Hin). by exists e1, e2, c, (s1, <[i := AIdle]> ts).
Qed.
Lemma vacked_size r o c : o ∈ vacked r -> (c = CSize -> exists x, r = RSize x) -> is_size c = false.
Proof. intros Ho Hs. destruct c; try done. destruct (Hs eq_refl) as [x ->]. by apply elem_of_nil in Ho. Qed.
Lemma get_objects_has C s ids os id o :
  get_objects (cp_json C) s ids = Val os -> id ∈ ids -> get_object (cp_json C) s id = Val (Some o) -> o ∈ os.
Proof.
  revert os. induction ids as [|i ids IH]; intros os; cbn [get_objects]; [by intros _ ?%elem_of_nil|].
  destruct (get_object (cp_json C) s i) as [x|e|z] eqn:Ex; [|done..]. cbn [mbind out_bind].
  destruct (get_objects (cp_json C) s ids) as [l|e|z] eqn:El; [|done..]. cbn [mbind out_bind]. intros <-%Val_inj [->|Hi]%elem_of_cons Hg.
  - assert (x = Some o) as -> by congruence. left.
  - specialize (IH _ eq_refl Hi Hg). destruct x; [by right|done].
Qed.

(** An object whose Insert (or batch) has returned is in the answer of every
    Get made later for its id, by whichever goroutine, whatever else goes on. *)
Theorem C63_concurrent_read_your_writes : forall C h s n v1 i r v2 j ids v3 os v4 s' ts' o,
  let vs := v1 ++ VRet i r :: v2 ++ VCall j (CGet ids) :: v3 ++ VRet j (RGet (Val os)) :: v4 in
  hist C empty_st h s -> (cp_maxval C < 2 ^ 32)%N -> json_total (cp_json C) ->
  con_run C (s, replicate n TIdle) vs (s', ts') -> ~ search_panicked vs ts' ->
  (N.of_nat (hist_inserts h + asked vs) < 2 ^ 64)%N -> no_return j v3 ->
  o ∈ vacked r -> o_id o ∈ ids -> ~ asks_delete (o_id o) vs ->
  json_ok (cp_json C) (o_props o) -> Forall (fun f => (f < 2 ^ 32)%N) (default [] (o_vec o)) ->
  o ∈ os.
Proof.
  intros C h s n v1 i r v2 j ids v3 os v4 s' ts' o vs Hh Hm Hj Hr Hp Hb Hnr Ho Hid Hnd Hjo Hf.
  destruct (C61_linearizable_partial C h s n vs s' ts' Hh Hm Hj Hr Hp) as (sa & as' & es & Ha & Hh' & _).
  pose proof (fun r0 => at_run_size _ _ _ _ _ _ r0 Ha) as Hsz.
  pose proof (at_run_sub _ _ _ _ _ _ _ Ha) as Hsub. pose proof (inserts_asked es vs Hsub) as Hask.
  assert (Hcl : forall c r, (c, r) ∈ es -> c ∈ called vs).
  { intros c0 r0 H0. eapply elem_of_submseteq; [|exact Hsub]. apply elem_of_list_fmap. by exists (c0, r0). }
  destruct (ret_effect _ _ _ _ _ _ _ _ _ _ Ha) as (e1 & e2 & c & m1 & -> & Hin & Ha2).
  destruct (at_run_call_return _ _ _ _ _ _ _ _ _ _ _ Ha2 Hnr) as (e3 & e4 & e5 & m2 & m3 & -> & Hin2 & _ & _).
  assert (Hcs : is_size c = false). { eapply vacked_size; [exact Ho|]. intros ->. apply Hsz. set_solver. }
  apply elem_of_list_split in Hin as (p1 & p2 & ->). apply elem_of_list_split in Hin2 as (p3 & p4 & ->).
  set (g := (CGet ids, RGet (Val os)) : call * reply) in *.
  assert (E : (p1 ++ (c, r) :: p2) ++ e3 ++ (p3 ++ g :: p4) ++ e5 = p1 ++ (c, r) :: (p2 ++ e3 ++ p3) ++ g :: (p4 ++ e5)) by (by repeat progress (rewrite <- ?app_assoc; cbn [app])).
  rewrite E in *. clear E.
  assert (E2 : events (p1 ++ (c, r) :: (p2 ++ e3 ++ p3) ++ g :: (p4 ++ e5)) =
    events p1 ++ EvCall c r :: events (p2 ++ e3 ++ p3) ++ EvCall (CGet ids) (RGet (Val os)) :: events (p4 ++ e5)).
  { rewrite events_app, events_cons, events_app by done. unfold g. by rewrite events_cons. }
  rewrite E2 in Hh'. rewrite <- events_inserts, E2 in Hask. clear E2.
  replace (h ++ events p1 ++ EvCall c r :: events (p2 ++ e3 ++ p3) ++ EvCall (CGet ids) (RGet (Val os)) :: events (p4 ++ e5))
    with ((h ++ events p1 ++ EvCall c r :: events (p2 ++ e3 ++ p3)) ++ EvCall (CGet ids) (RGet (Val os)) :: events (p4 ++ e5)) in Hh'
    by (by repeat progress (rewrite <- ?app_assoc; cbn [app])).
  destruct (hist_split _ _ _ _ _ _ Hh') as (s1 & s2 & H1 & H2 & _).
  inversion H2 as [c0 s3 r0 Hc| |]; subst. inversion Hc as [| | | | | |ids0 s3 r0 Hx| | | | ]; subst.
  unfold CollModel.get in Hx. rewrite exec_act in Hx. destruct (closed s1) eqn:Ecl; [done|]. apply Some_pair_inj in Hx as [_ Hx].
  replace (h ++ events p1 ++ EvCall c r :: events (p2 ++ e3 ++ p3)) with ((h ++ events p1) ++ EvCall c r :: events (p2 ++ e3 ++ p3)) in H1 by by rewrite <- app_assoc.
  eapply get_objects_has; [exact Hx|exact Hid|].
  refine (proj1 (acked_found C _ _ _ _ _ o H1 _ Ecl Hm Ho _ Hjo Hf)).
  - rewrite hist_inserts_app, hist_inserts_cons in Hask |- *. rewrite !hist_inserts_app in *. lia.
  - apply not_true_is_false. rewrite existsb_exists. intros (e & He & Hd). apply elem_of_list_In in He.
    apply events_from in He as (c1 & r1 & -> & He). cbn in Hd. destruct c1; try done. apply bool_decide_eq_true_1 in Hd.
    assert (Hc1 : CDelete io id ∈ called vs) by (apply (Hcl _ r1); set_solver).
    apply called_in in Hc1 as [k Hk]. apply Hnd. eexists _, _, _. eauto.
Qed.
Print Assumptions C63_concurrent_read_your_writes.

(** An object whose Delete has returned nil is in no answer of a call made
    later: [r] is the reply that made its id known. *)
Theorem C63_concurrent_delete : forall C h s n v1 i r v2 j io id v3 v4 k c r2 v5 v6 s' ts',
  let vs := v1 ++ VRet i r :: v2 ++ VCall j (CDelete io id) :: v3 ++ VRet j (RUnit (Val tt)) :: v4 ++ VCall k c :: v5 ++ VRet k r2 :: v6 in
  hist C empty_st h s -> (cp_maxval C < 2 ^ 32)%N -> json_total (cp_json C) ->
  con_run C (s, replicate n TIdle) vs (s', ts') -> ~ search_panicked vs ts' ->
  (N.of_nat (hist_inserts h + asked vs) < 2 ^ 64)%N -> no_return j v3 -> no_return k v5 ->
  id ∈ (o_id <$> vacked r) -> (id < 2 ^ 64)%N ->
  id ∉ shown (EvCall c r2).
Proof.
  intros C h s n v1 i r v2 j io id v3 v4 k c r2 v5 v6 s' ts' vs Hh Hm Hj Hr Hp Hb Hn1 Hn2 Hid Hlt Hsh.
  destruct (C61_linearizable_partial C h s n vs s' ts' Hh Hm Hj Hr Hp) as (sa & as' & es & Ha & Hh' & _).
  pose proof (fun r0 => at_run_size _ _ _ _ _ _ r0 Ha) as Hsz.
  pose proof (inserts_asked es vs (at_run_sub _ _ _ _ _ _ _ Ha)) as Hask.
  destruct (ret_effect _ _ _ _ _ _ _ _ _ _ Ha) as (e1 & e2 & c1 & m1 & -> & Hin & Ha2).
  destruct (at_run_call_return _ _ _ _ _ _ _ _ _ _ _ Ha2 Hn1) as (e3 & e4 & e5 & m2 & m3 & -> & Hin2 & _ & Ha3).
  destruct (at_run_call_return _ _ _ _ _ _ _ _ _ _ _ Ha3 Hn2) as (e6 & e7 & e8 & m4 & m5 & -> & Hin3 & _ & _).
  assert (Hcs : is_size c1 = false).
  { apply elem_of_list_fmap in Hid as (o & _ & Ho). eapply vacked_size; [exact Ho|]. intros ->. apply Hsz. set_solver. }
  assert (Hcs2 : is_size c = false).
  { destruct c; try done. destruct (Hsz r2) as [x ->]; [set_solver|]. by apply elem_of_nil in Hsh. }
  apply elem_of_list_split in Hin2 as (p3 & p4 & ->).
  rewrite !events_app, events_cons in Hh' by done.
  replace (h ++ events e1 ++ events e3 ++ (events p3 ++ EvCall (CDelete io id) (RUnit (Val tt)) :: events p4) ++ events e6 ++ events e7 ++ events e8)
    with ((h ++ events e1 ++ events e3 ++ events p3) ++ EvCall (CDelete io id) (RUnit (Val tt)) :: events p4 ++ events e6 ++ events e7 ++ events e8) in Hh'
    by (by repeat progress (rewrite <- ?app_assoc; cbn [app])).
  eapply (C07_deleted_stays_deleted C _ _ _ _ _ Hh'); [|exact Hlt| | |exact Hsh].
  - rewrite <- events_inserts, !events_app, events_cons in Hask by done. rewrite !hist_inserts_app, !hist_inserts_cons in *. rewrite !hist_inserts_app in *. lia.
  - left. unfold acked_ids. apply elem_of_list_fmap in Hid as (o & -> & Ho). apply elem_of_list_fmap. exists o. split; [done|].
    apply elem_of_list_join. exists (acked (EvCall c1 r)). split; [done|]. apply elem_of_list_fmap. exists (EvCall c1 r). split; [done|].
    pose proof (events_in e1 c1 r Hcs Hin). set_solver.
  - pose proof (events_in e7 c r2 Hcs2 Hin3). set_solver.
Qed.
Print Assumptions C63_concurrent_delete.

(** In [case_trace] object 1 is inserted and later asked for; object 0 is
    inserted, deleted twice at once and then asked for. *)
Example C63_case : exists v1 v2 v3 v3' v4 v4' v5 o s' ts',
  case_trace = v1 ++ VRet 1 (RIns (Val o)) :: v2 ++ VCall 2 (CGet [0; 1]%N) :: v3 ++ VRet 2 (RGet (Val [o])) :: [] /\
  case_trace = (v1 ++ VRet 1 (RIns (Val o)) :: []) ++ VCall 0 (CDelete true 0) :: v3' ++ VRet 0 (RUnit (Val tt)) :: v4 ++
               VCall 2 (CGet [0; 1]%N) :: v4' ++ VRet 2 (RGet (Val [o])) :: v5 /\
  no_return 2 v3 /\ no_return 0 v3' /\ no_return 2 v4' /\ length v3' = 4 /\
  hist ex_C empty_st [] empty_st /\ (cp_maxval ex_C < 2 ^ 32)%N /\ json_total (cp_json ex_C) /\
  con_run ex_C (empty_st, replicate 3 TIdle) case_trace (s', ts') /\ ~ search_panicked case_trace ts' /\
  (N.of_nat (hist_inserts [] + asked case_trace) < 2 ^ 64)%N /\ asked case_trace = 2 /\
  o_id o = 1%N /\ ~ asks_delete 1 case_trace /\ VRet 0 (RIns (Val (Object 0 ∅ (Some [0%N])))) ∈ v1 /\
  json_ok (cp_json ex_C) (o_props o) /\ Forall (fun f => (f < 2 ^ 32)%N) (default [] (o_vec o)).
Proof.
  destruct C61_case as ([s' ts'] & H1 & H2 & H3 & Hr & Hp). cbn [snd] in Hp.
  exists (take 3 case_trace), (take 6 (drop 4 case_trace)), [], (take 4 (drop 5 case_trace)), [], [], [], (Object 1 ∅ (Some [1065353216%N])), s', ts'.
  split; [reflexivity|]. split; [reflexivity|].
  assert (Hnil : no_return 2 []) by by intros r ?%elem_of_nil.
  split; [done|]. split.
  { intros r Hi. unfold case_trace in Hi. cbn [take drop] in Hi. repeat (apply elem_of_cons in Hi as [Hi|Hi]; [discriminate Hi|]). by apply elem_of_nil in Hi. }
  split; [done|]. split; [reflexivity|]. do 5 (split; [done|]). split; [reflexivity|]. split; [reflexivity|]. split; [done|]. split.
  { intros (i & io & id & Hin & Hid). clear -Hin Hid. unfold case_trace in Hin.
    repeat (apply elem_of_cons in Hin as [Hin|Hin]; [first [discriminate Hin|injection Hin; intros; subst; vm_compute in Hid; discriminate Hid]|]). by apply elem_of_nil in Hin. }
  split; [right; left|]. split; [exists [123; 125]%N; split; vm_compute; reflexivity|]. repeat constructor.
Qed.

(** ** C64 Queries change nothing *)
Definition query (c : call) : bool := match c with CGet _ | CSearch _ _ | CSize | CUpdate _ => true | _ => false end.
(** Neither the stores nor the log nor the index: the state after a query is
    the state before, so nothing a query does can be seen by a later call, a
    later crash included.  (A search that panics can leave a lock of the index
    held.) *)
Theorem C64_queries_change_nothing : forall C s c s' r,
  query c = true -> call_run C s c s' r -> (forall z, r <> RSearch (Pan z)) -> s' = s.
Proof.
  intros C s c s' r Hq Hr Hp.
  inversion Hr as [| | | | | |ids s1 r1 Hx|o k s1 r1 Hx|s1 r1 Hx|o s1 r1 Hx| ]; subst; try done.
  - unfold CollModel.get in Hx. rewrite exec_act in Hx. destruct (closed s); by apply Some_pair_inj in Hx as [<- _].
  - eapply ro_exec; [apply ro_semantic|exact Hx|]. intros z ->. by destruct (Hp z).
  - unfold get_size in Hx. rewrite exec_act in Hx. by apply Some_pair_inj in Hx as [<- _].
  - unfold update, check_open in Hx. rewrite exec_act in Hx. destruct (closed s); by apply Some_pair_inj in Hx as [<- _].
Qed.
Print Assumptions C64_queries_change_nothing.

(** So any number of queries can be left out of a history, and a query asked
    again, with only queries in between, is answered the same. *)
Definition is_query (e : event) : bool := match e with EvCall c _ => query c | _ => false end.
Theorem C64_queries_can_be_left_out : forall C h s,
  hist C empty_st h s -> (forall c z, EvCall c (RSearch (Pan z)) ∉ h) ->
  hist C empty_st (filter (fun e => is_query e = false) h) s.
Proof.
  intros C h s Hh Hp. induction Hh as [|h e s1 s2 Hh IH Hs]; [constructor|].
  assert (IH' := IH ltac:(intros c z Hi; apply (Hp c z); set_solver)). rewrite filter_app.
  destruct (is_query e) eqn:Ee.
  - rewrite filter_cons_False, filter_nil, app_nil_r by (rewrite Ee; done).
    destruct e as [c r| |]; try done. inversion Hs as [c0 s0 r0 Hc| |]; subst.
    by rewrite (C64_queries_change_nothing C s1 c s2 r Ee Hc ltac:(intros z ->; apply (Hp c z); set_solver)).
  - rewrite filter_cons_True, filter_nil by done. by econstructor.
Qed.
Print Assumptions C64_queries_can_be_left_out.

Theorem C64_answers_repeat : forall C h s1 c r h2 r2 s2,
  hist C empty_st h s1 -> query c = true -> hist C s1 (EvCall c r :: h2 ++ [EvCall c r2]) s2 ->
  Forall (fun e => is_query e = true) h2 -> (forall c0 z, EvCall c0 (RSearch (Pan z)) ∉ EvCall c r :: h2) ->
  r2 = r.
Proof.
  intros C h s1 c r h2 r2 s2 Hh Hq Hh2 Hall Hp.
  assert (Hsame : forall h s s', hist C s h s' -> Forall (fun e => is_query e = true) h -> (forall c z, EvCall c (RSearch (Pan z)) ∉ h) -> s' = s).
  { clear. intros h s s' Hh. induction Hh as [|h e s1 s2 Hh IH Hs]; [done|]. rewrite Forall_app, Forall_singleton. intros [Hall He] Hp.
    rewrite <- IH; [|done|intros c z Hi; apply (Hp c z); set_solver].
    destruct e as [c r| |]; try done. inversion Hs as [c0 s0 r0 Hc| |]; subst.
    by apply (C64_queries_change_nothing C s1 c s2 r He Hc ltac:(intros z ->; apply (Hp c z); set_solver)). }
  destruct (hist_split C s1 (EvCall c r :: h2) (EvCall c r2) [] s2 Hh2) as (sa & sb & Ha & Hb & _).
  rewrite (Hsame _ _ _ Ha) in Hb; [| |done]; [|by constructor].
  destruct (hist_split C s1 [] (EvCall c r) h2 sa Ha) as (sc & sd & Hc & Hd & _).
  assert (sc = s1) as -> by (apply (Hsame _ _ _ Hc); [constructor|by intros ? ? ?%elem_of_nil]).
  inversion Hb as [c0 s0 r0 Hcb| |]; subst. inversion Hd as [c0 s0 r0 Hcd| |]; subst.
  inversion Hcb as [| | | | | |ids s3 r3 Hx|o k s3 r3 Hx|s3 r3 Hx|o s3 r3 Hx| ]; subst; try done;
    inversion Hcd as [| | | | | |ids' s4 r4 Hx'|o' k' s4 r4 Hx'|s4 r4 Hx'|o' s4 r4 Hx'| ]; subst; rewrite Hx in Hx'; by apply Some_pair_inj in Hx' as [_ ->].
Qed.
Print Assumptions C64_answers_repeat.

(** A search, a Get and a GetSize between two equal searches. *)
Example C64_case : exists h s1 r h2 s2,
  hist ex_C empty_st h s1 /\ query (CSearch (Object 0 ∅ (Some [0%N])) 2) = true /\
  hist ex_C s1 (EvCall (CSearch (Object 0 ∅ (Some [0%N])) 2) r :: h2 ++ [EvCall (CSearch (Object 0 ∅ (Some [0%N])) 2) r]) s2 /\
  Forall (fun e => is_query e = true) h2 /\ length h2 = 3 /\
  (forall c z, EvCall c (RSearch (Pan z)) ∉ EvCall (CSearch (Object 0 ∅ (Some [0%N])) 2) r :: h2) /\
  shown (EvCall (CSearch (Object 0 ∅ (Some [0%N])) 2) r) = [0; 1]%N.
Proof.
  set (S := CSearch (Object 0 ∅ (Some [0%N])) 2).
  set (r := RSearch (Val (2, [Hit 0 ∅ (S754_zero false); Hit 1 ∅ (S754_finite false 8388608 (-23))]))).
  set (h2 := [EvCall (CGet [1]%N) (RGet (Val [Object 1 ∅ (Some [1065353216%N])])); EvCall CSize (RSize (Val 2)); EvCall S r]).
  set (h := [EvCall (CInsert true 0 (Object 0 ∅ (Some [0%N]))) (RIns (Val (Object 0 ∅ (Some [0%N]))));
             EvCall (CInsert true 1 (Object 0 ∅ (Some [1065353216%N]))) (RIns (Val (Object 1 ∅ (Some [1065353216%N]))))]).
  assert (option_map fst (script_exec ex_C
    [ SCall (CInsert true 0 (Object 0 ∅ (Some [0%N]))); SCall (CInsert true 1 (Object 0 ∅ (Some [1065353216%N])));
      SCall S; SCall (CGet [1]%N); SCall CSize; SCall S; SCall S ] empty_st) = Some (h ++ EvCall S r :: h2 ++ [EvCall S r])) as Hv.
  { vm_compute. reflexivity. }
  destruct (script_exec ex_C _ _) as [[h' s2]|] eqn:Hm; [|discriminate Hv]. apply (inj Some) in Hv. cbn [fst] in Hv. subst h'.
  apply script_hist in Hm. destruct (hist_app_inv _ _ _ _ _ Hm) as (s1 & H1 & H3).
  exists h, s1, r, h2, s2. split; [done|]. split; [done|]. split; [done|]. split; [by repeat constructor|]. split; [done|]. split; [|done].
  intros c z Hi. unfold h2, r in Hi. repeat (apply elem_of_cons in Hi as [Hi|Hi]; [discriminate Hi|]). by apply elem_of_nil in Hi.
Qed.
