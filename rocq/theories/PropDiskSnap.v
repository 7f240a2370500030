(** C73: which closed memory indexes of DiskAnn are on disk. *)
From Verif Require Import GoBase FloatModel HeapModel MMHeapModel DiskAnnModel DiskTopModel.
From Verif Require Import ProofBase DiskAnnProofs DiskAnnCodec PropDiskAnn DiskTopProofs PropDiskTop.
Open Scope nat_scope.

(** Closed index [p] is on disk: file ro_p holds its snapshot. *)
Definition saved (da : dann) (p : nat) : Prop :=
  exists mi f, da_mem da !! p = Some mi /\ write_index mi = Val f /\ da_files da !! p = Some f.

(** False for the code: the goroutine looks at rwIndex and len(roIndexes) only
    when it runs, and then they are those of the next index.  Two inserts with
    limit 1; the goroutine has run and written its file without error. *)
Theorem C73_closed_is_saved_refuted :
  exists ops s p, reached (cfg1 1) (seq_evs 0 ops) s /\ p ∈ da_ro (ds_da s) /\ da_pend (ds_da s) = 0 /\
    (forall ok, SSnap ok ∈ ops -> ok = true) /\ ~ saved (ds_da s) p.
Proof.
  exists [SIns (f1 0) 1; SIns (f1 1065353216) 2; SSnap true].
  destruct (reached_witness (cfg1 1) 20 (seq_evs 0 [SIns (f1 0) 1; SIns (f1 1065353216) 2; SSnap true]) (fun s =>
    (da_ro (ds_da s), da_pend (ds_da s), da_files (ds_da s) !! 0, match da_files (ds_da s) !! 1 with Some _ => true | None => false end)
    = ([0], 0, None, true))) as (s & Hr & E).
  { by vm_compute. }
  { vm_compute. reflexivity. }
  injection E as E1 E2 E3 _. exists s, 0. split; [exact Hr|]. split; [rewrite E1; by left|]. split; [exact E2|]. split.
  - intros ok Hok. repeat (apply elem_of_cons in Hok as [Hok|Hok]; [first [discriminate|by injection Hok]|]). by apply elem_of_nil in Hok.
  - intros (mi & f & _ & _ & Hf). rewrite E3 in Hf. discriminate.
Qed.
Print Assumptions C73_closed_is_saved_refuted.

(** It is not a matter of luck: as long as the goroutines only run between calls,
    the first index is never saved, however many inserts and snapshots follow. *)
Theorem C73_first_index_never_saved_refuted :
  forall c fuel ops s, proper c -> (N.of_nat (nins ops) < 2 ^ 64 - 1)%N ->
    drun c fuel (dinit c) (seq_evs 0 ops) = Val s -> da_files (ds_da s) !! 0 = None /\ ~ saved (ds_da s) 0.
Proof.
  intros c fuel ops s Ht Hn E.
  assert (da_files (ds_da s) !! 0 = None) as H0; [|split; [exact H0|]; intros (mi & f & _ & _ & Hf); congruence].
  apply (seq_run c fuel Ht (fun _ => True) (fun s => da_files (ds_da s) !! 0 = None /\ (da_pend (ds_da s) <> 0 -> da_ro (ds_da s) <> [])))
    with (ops := ops) (s := dinit c); try done.
  - intros s1 ok da' [H1 H2] Es. unfold snap_step in Es. destruct (da_pend (ds_da s1)) as [|n] eqn:Ep; [apply Val_inj in Es as <-; cbn [ds_da]; by rewrite Ep|].
    destruct (da_mem (ds_da s1) !! da_rw (ds_da s1)) as [mi|]; [|done]. cbn [or_pan mbind out_bind] in Es.
    destruct (write_index mi); [|done..]. cbn [mbind out_bind] in Es. apply Val_inj in Es as <-. cbn [ds_da da_files da_pend da_ro].
    specialize (H2 ltac:(lia)). split; [|done]. destruct ok; [|done]. rewrite lookup_insert_ne; [done|].
    destruct (da_ro (ds_da s1)); [done|]. cbn [length]. lia.
  - clear -Ht. intros s v obj s' H Hl [H1 H2] _ Hn E.
    destruct (insert_cases c fuel s v obj s' Ht H Hl Hn E) as (mi & mi1 & Emi & Hrest). cbv zeta in Hrest.
    destruct Hrest as (_ & _ & Hcase & Hout).
    assert (da_files (checked c (ds_da s) mi) !! 0 = None /\ (da_pend (checked c (ds_da s) mi) <> 0 -> da_ro (checked c (ds_da s) mi) <> [])) as [G1 G2].
    { destruct Hcase as [(_ & -> & _)|(_ & -> & _)]; [done|]. cbn [rotated da_files da_pend da_ro]. split; [done|]. intros _. by destruct (da_ro (ds_da s)). }
    destruct Hout as [(_ & mi' & _ & _ & _ & ->)|[_ ->]]; done.
  - apply DInv_init.
Qed.
Print Assumptions C73_first_index_never_saved_refuted.

(** What holds: if every goroutine runs, and succeeds, before the insert that
    started it goes on, then all closed indexes are saved for ever. *)
Definition in_time (s : dsys) (e : dev) : Prop :=
  match e with
  | EvStep i => forall cl, ds_calls s !! i = Some cl -> ic_pc cl = IMarked -> da_pend (ds_da s) = 0
  | EvSnap ok => ok = true /\ exists i cl, ds_calls s !! i = Some cl /\ ic_pc cl = IMarked
  | _ => True
  end.
Fixpoint prompt (c : dcfg) (fuel : nat) (s : dsys) (evs : list dev) : Prop :=
  match evs with
  | [] => True
  | e :: evs' => in_time s e /\ forall s', dstep c fuel s e = Val s' -> prompt c fuel s' evs'
  end.

Definition marked (s : dsys) : Prop := exists i cl, ds_calls s !! i = Some cl /\ ic_pc cl = IMarked.
Record SInv (s : dsys) : Prop := {
  si_pend : da_pend (ds_da s) = 0 \/ (da_pend (ds_da s) = 1 /\ marked s);
  si_ro : forall p, p ∈ da_ro (ds_da s) -> saved (ds_da s) p;
  si_rw : marked s -> da_pend (ds_da s) = 0 -> saved (ds_da s) (da_rw (ds_da s));
  si_files : forall n f, da_files (ds_da s) !! n = Some f -> n < length (da_ro (ds_da s)) \/
    (n = length (da_ro (ds_da s)) /\ da_pend (ds_da s) = 0 /\ marked s)
}.

Lemma marked_same calls calls' da da' i cl v obj pc' :
  calls !! i = Some cl -> ic_pc cl <> IMarked -> pc' <> IMarked -> calls' = <[i := ICall v obj pc']> calls ->
  marked (DSys da' calls') <-> marked (DSys da calls).
Proof.
  intros Hi Hn Hn' ->. split; intros (j & cj & Hj & Pj); cbn [ds_calls] in *.
  - apply list_lookup_insert_Some in Hj as [(<- & <- & _)|[_ Hj]]; [done|]. by exists j, cj.
  - exists j, cj. cbn [ds_calls]. rewrite list_lookup_insert_ne; [done|]. intros <-. congruence.
Qed.

(** nobody holds the lock *)
Lemma free_unmarked c s : DInv c s -> da_lock (ds_da s) = false -> ~ marked s /\ da_ro (ds_da s) = seq 0 (da_rw (ds_da s)).
Proof.
  intros H Hl. split.
  - intros (i & cl & Hi & Pi). rewrite (di_lock c s H i cl Hi) in Hl; [done|by rewrite Pi].
  - destruct (di_ro c s H) as [E|(_ & i & cl & Hi & Pi)]; [done|]. rewrite (di_lock c s H i cl Hi) in Hl; [done|by rewrite Pi].
Qed.

Lemma sinv_step c fuel s i cl da' pc' : DInv c s -> SInv s -> in_time s (EvStep i) -> ds_calls s !! i = Some cl ->
  proper c -> istep c fuel (ds_da s) (ic_vec cl) (ic_pc cl) = Val (Some (da', pc')) ->
  SInv (DSys da' (<[i := ICall (ic_vec cl) (ic_obj cl) pc']> (ds_calls s))).
Proof.
  intros H [S1 S2 S3 S4] Hp Hi Ht E. destruct s as [da calls]. cbn [in_time ds_da ds_calls] in *.
  assert (Hil : i < length calls) by (by eapply lookup_lt_Some).
  assert (Hmk : ic_pc cl <> IMarked -> pc' <> IMarked -> forall d, marked (DSys d (<[i := ICall (ic_vec cl) (ic_obj cl) pc']> calls)) <-> marked (DSys da calls)).
  { intros H1 H2 d. by eapply marked_same. }
  assert (Hkeep : ic_pc cl <> IMarked -> pc' <> IMarked -> da_pend da' = da_pend da -> da_ro da' = da_ro da -> da_rw da' = da_rw da -> da_files da' = da_files da ->
    (forall p, saved da p -> p ∈ da_ro da \/ (marked (DSys da calls) /\ p = da_rw da) -> saved da' p) ->
    SInv (DSys da' (<[i := ICall (ic_vec cl) (ic_obj cl) pc']> calls))).
  { intros H1 H2 E1 E2 E3 E4 Hs. specialize (Hmk H1 H2 da'). split; cbn [ds_da]; rewrite ?E1, ?E2, ?E3, ?E4.
    - rewrite Hmk. exact S1.
    - intros p Hpr. apply Hs; [by apply S2|by left].
    - rewrite Hmk. intros Hm Hz. apply Hs; [by apply S3|by right].
    - intros n f Hf. rewrite Hmk. by eapply S4. }
  assert (Hone : forall d pc1, holds (ic_pc cl) = true -> pc1 <> IMarked -> ~ marked (DSys d (<[i := ICall (ic_vec cl) (ic_obj cl) pc1]> calls))).
  { intros d pc1 Hh Hn (j & cj & Hj & Pj). cbn [ds_calls] in Hj. apply list_lookup_insert_Some in Hj as [(<- & <- & _)|[Hne Hj]]; [done|].
    apply Hne. apply (di_one c _ H i j cl cj); [done|done|done|by rewrite Pj]. }
  destruct (ic_pc cl) eqn:Epc; cbn [istep] in E.
  - (* IStart *)
    destruct (da_lock da) eqn:El; [done|]. destruct (free_unmarked c _ H El) as [Hun Hro]. cbn [ds_da] in Hro.
    destruct (da_mem da !! da_rw da) as [mi|] eqn:Em; [|done]. cbn [or_pan mbind out_bind] in E.
    destruct (_ =? _)%N; injection E as <- <-; [|by apply Hkeep].
    assert (da_pend da = 0) as Ep by (destruct S1 as [?|[_ ?]]; done).
    split; cbn [ds_da da_pend da_ro da_rw da_files].
    + right. split; [lia|]. exists i. eexists. cbn [ds_calls]. by rewrite list_lookup_insert.
    + intros p Hpr. destruct (S2 p Hpr) as (m & f & Hm & Hw & Hf). exists m, f. cbn [da_mem da_files].
      rewrite list_lookup_insert_ne; [done|]. rewrite Hro in Hpr. apply elem_of_seq in Hpr. lia.
    + lia.
    + intros n f Hf. destruct (S4 n f Hf) as [?|(_ & _ & ?)]; [by left|done].
  - (* IMarked *)
    injection E as <- <-. specialize (Hp cl Hi Epc). pose proof (di_marked c _ H i cl Hi Epc) as Hro. cbn [ds_da] in Hro.
    assert (marked (DSys da calls)) as Hm by (by exists i, cl).
    split; cbn [ds_da da_pend da_ro da_rw da_files].
    + by left.
    + intros p [Hpr|Hpr%elem_of_list_singleton]%elem_of_app; [by apply (S2 p)|]. subst p. by apply (S3 Hm Hp).
    + intros Hm'. by destruct (Hone _ IAppended eq_refl ltac:(done) Hm').
    + intros n f Hf. rewrite app_length. cbn. left. destruct (S4 n f Hf) as [?|(? & _)]; lia.
  - (* IAppended *)
    injection E as <- <-. pose proof (di_app c _ H i cl Hi Epc) as Hro. pose proof (di_rw c _ H) as Hrw. cbn [ds_da] in *.
    assert (~ marked (DSys da calls)) as Hun.
    { intros (j & cj & Hj & Pj). cbn [ds_calls] in Hj. assert (i = j) as <-; [|congruence]. apply (di_one c _ H i j cl cj); [done|done|by rewrite Epc|by rewrite Pj]. }
    split; cbn [ds_da da_pend da_ro da_rw da_files].
    + destruct S1 as [?|[_ ?]]; [by left|done].
    + intros p Hpr. destruct (S2 p Hpr) as (m & f & Hm & Hw & Hf). exists m, f. cbn [da_mem da_files].
      rewrite lookup_app_l; [done|]. by eapply lookup_lt_Some.
    + intros Hm'. by destruct (Hone _ IFree eq_refl ltac:(done) Hm').
    + intros n f Hf. destruct (S4 n f Hf) as [?|(_ & _ & ?)]; [by left|done].
  - injection E as <- <-. by apply Hkeep.
  - injection E as <- <-. by apply Hkeep.
  - (* IAt *)
    destruct (da_mem da !! p) as [mi|] eqn:Em; [|done]. cbn [or_pan mbind out_bind] in E.
    destruct (di_mem c _ H p mi Em) as (W & Wd & _ & Wro). cbn [ds_da ds_calls] in Wro.
    pose proof (minsert_spec (dc_fn c) (da_del da) fuel mi (ic_vec cl) (dc_list c) (dc_thr c) id (dist_total_at c Ht mi Wd) W) as Hsp.
    destruct (minsert _ _ _ _ _ _ _ _) as [mi'|e|?] in E, Hsp; [|injection E as <- <-; by apply Hkeep|done].
    injection E as <- <-. destruct Hsp as (Hop & _). apply Hkeep; try done.
    intros p' (m & f & Hm & Hw & Hf) Hp'. exists m, f. cbn [da_mem da_files]. rewrite list_lookup_insert_ne; [done|]. intros <-.
    assert (mi_ro mi = true); [|congruence]. apply Wro. destruct Hp' as [Hin|[(j & cj & Hj & Pj) _]].
    + destruct (di_ro c _ H) as [Er|(Er & j & cj & Hj & Pj)]; cbn [ds_da ds_calls] in *.
      * left. rewrite Er in Hin. apply elem_of_seq in Hin. lia.
      * right. exists j, cj. by rewrite Pj.
    + right. exists j, cj. by rewrite Pj.
  - done.
Qed.

Lemma sinv_dstep c fuel s e s' : proper c -> DInv c s -> SInv s -> in_time s e -> dstep c fuel s e = Val s' -> SInv s'.
Proof.
  intros Ht H S Hp E. destruct e as [v obj|i|ok|obj]; cbn [dstep] in E.
  - apply Val_inj in E as <-. assert (marked (DSys (ds_da s) (ds_calls s ++ [ICall v obj IStart])) <-> marked s) as Hm.
    { split; intros (j & cj & Hj & Pj); cbn [ds_calls] in *.
      - apply lookup_app_Some in Hj as [Hj|[_ Hj]]; [by exists j, cj|]. apply list_lookup_singleton_Some in Hj as [_ <-]. done.
      - exists j, cj. cbn [ds_calls]. rewrite lookup_app_l; [done|]. by eapply lookup_lt_Some. }
    destruct S as [S1 S2 S3 S4]. split; cbn [ds_da]; [by rewrite Hm|done|by rewrite Hm|]. intros n f Hf. rewrite Hm. by eapply S4.
  - destruct (ds_calls s !! i) as [cl|] eqn:Ei; [|by apply Val_inj in E as <-].
    destruct (istep c fuel (ds_da s) (ic_vec cl) (ic_pc cl)) as [[[da' pc']|]|?|?] eqn:Es; [| |done..]; cbn [mbind out_bind] in E; apply Val_inj in E as <-; [|done].
    by eapply sinv_step.
  - destruct Hp as [-> Hm]. destruct (snap_step (ds_da s) true) as [da'|?|?] eqn:Es; [|done..]. cbn [mbind out_bind] in E. apply Val_inj in E as <-.
    unfold snap_step in Es. destruct (da_pend (ds_da s)) as [|n] eqn:Ep; [apply Val_inj in Es as <-; by destruct s|].
    destruct (da_mem (ds_da s) !! da_rw (ds_da s)) as [mi|] eqn:Em; [|done]. cbn [or_pan mbind out_bind] in Es.
    destruct (write_index mi) as [f|?|?] eqn:Ew; [|done..]. cbn [mbind out_bind] in Es. apply Val_inj in Es as <-.
    destruct S as [S1 S2 S3 S4]. assert (n = 0) as -> by (destruct S1 as [?|[? _]]; lia).
    destruct Hm as (i & cl & Hi & Pi). pose proof (di_marked c s H i cl Hi Pi) as Hro.
    assert (da_files (ds_da s) !! length (da_ro (ds_da s)) = None) as Hnone.
    { destruct (da_files (ds_da s) !! length (da_ro (ds_da s))) as [f0|] eqn:Ef; [|done]. apply S4 in Ef as [?|(_ & ? & _)]; lia. }
    assert (length (da_ro (ds_da s)) = da_rw (ds_da s)) as Hlen by (rewrite Hro; apply seq_length).
    rewrite Hnone. unfold overwrite. cbn [default]. rewrite drop_nil, app_nil_r.
    split; cbn [ds_da da_pend da_ro da_rw da_files].
    + by left.
    + intros p Hpr. destruct (S2 p Hpr) as (m & f0 & Hm & Hw & Hf). exists m, f0. cbn [da_mem da_files].
      rewrite lookup_insert_ne; [done|]. rewrite Hro in Hpr. apply elem_of_seq in Hpr. lia.
    + intros _ _. exists mi, f. cbn [da_mem da_files]. split; [done|]. split; [done|]. rewrite Hlen. apply lookup_insert.
    + intros n f0 [[<- _]|[_ Hf]]%lookup_insert_Some; [right|].
      * split; [done|]. split; [done|]. by exists i, cl.
      * destruct (S4 n f0 Hf) as [?|(_ & ? & _)]; [by left|lia].
  - apply Val_inj in E as <-. destruct S as [S1 S2 S3 S4]. split; done.
Qed.

Theorem C73_closed_is_saved_partial :
  forall c fuel evs s, proper c -> (N.of_nat (ncalls evs) < 2 ^ 64 - 1)%N ->
    drun c fuel (dinit c) evs = Val s -> prompt c fuel (dinit c) evs ->
    forall p, p ∈ da_ro (ds_da s) -> saved (ds_da s) p.
Proof.
  intros c fuel evs s Ht Hn E Hp.
  assert (forall evs s0 s1, DInv c s0 -> SInv s0 -> (N.of_nat (length (ds_calls s0) + ncalls evs) < 2 ^ 64 - 1)%N ->
    drun c fuel s0 evs = Val s1 -> prompt c fuel s0 evs -> SInv s1) as HH.
  { clear -Ht. induction evs as [|e evs IH]; intros s0 s1 H S Hn E Hp; cbn [drun] in E; [by apply Val_inj in E as <-|].
    destruct (dstep c fuel s0 e) as [s2|?|?] eqn:E2; [|done..]. cbn [mbind out_bind] in E. destruct Hp as [Hp1 Hp2].
    apply (IH s2 s1); [| | |done|by apply Hp2].
    - apply (dstep_inv c fuel Ht s0 e); [done|destruct e; cbn [ncalls] in *; lia|done].
    - by eapply sinv_dstep.
    - pose proof (dstep_len c fuel s0 e s2 E2). destruct e; cbn [ncalls] in *; lia. }
  apply (HH evs (dinit c) s); try done; [apply DInv_init|]. split; cbn.
  - by left.
  - intros p Hpp. by apply elem_of_nil in Hpp.
  - intros (i & cl & Hi & _). cbn in Hi. by rewrite lookup_nil in Hi.
  - intros n f Hf. by rewrite lookup_empty in Hf.
Qed.
Print Assumptions C73_closed_is_saved_partial.

(** Limit 1, three inserts, each goroutine in time: files 0 and 1 are there and
    the current index has none. *)
Definition prompt_evs : list dev :=
  one_insert 0 (f1 0) 1 ++ [EvCall (f1 1065353216) 2; EvStep 1; EvSnap true] ++ replicate 5 (EvStep 1) ++
  [EvCall (f1 1073741824) 3; EvStep 2; EvSnap true] ++ replicate 5 (EvStep 2).
Definition is_marked (cl : icall) : bool := match ic_pc cl with IMarked => true | _ => false end.
Fixpoint promptb (c : dcfg) (fuel : nat) (s : dsys) (evs : list dev) : bool :=
  match evs with
  | [] => true
  | e :: evs' =>
      match e with
      | EvStep i => match ds_calls s !! i with Some cl => negb (is_marked cl) || (da_pend (ds_da s) =? 0) | None => true end
      | EvSnap ok => ok && existsb is_marked (ds_calls s)
      | _ => true
      end && match dstep c fuel s e with Val s' => promptb c fuel s' evs' | _ => true end
  end.
Lemma promptb_ok c fuel evs : forall s, promptb c fuel s evs = true -> prompt c fuel s evs.
Proof.
  induction evs as [|e evs IH]; intros s H; [done|]. cbn [promptb prompt] in *. apply andb_prop in H as [H1 H2]. split.
  - destruct e as [v obj|i|ok|obj]; cbn [in_time]; [done| | |done].
    + intros cl Hi Pi. rewrite Hi in H1. unfold is_marked in H1. rewrite Pi in H1. cbn in H1. by apply Nat.eqb_eq.
    + apply andb_prop in H1 as [-> H1]. split; [done|]. apply existsb_exists in H1 as (cl & Hin & Hm).
      apply elem_of_list_In, elem_of_list_lookup in Hin as [i Hi]. exists i, cl. split; [done|]. unfold is_marked in Hm. by destruct (ic_pc cl).
  - intros s' E. rewrite E in H2. by apply IH.
Qed.
Example C73_case : prompt (cfg1 1) 20 (dinit (cfg1 1)) prompt_evs /\
  match drun (cfg1 1) 20 (dinit (cfg1 1)) prompt_evs with
  | Val s => da_ro (ds_da s) = [0; 1] /\ (fun n => match da_files (ds_da s) !! n with Some f => length f | None => 0 end) <$> [0; 1; 2] = [2; 2; 0]
  | _ => False
  end.
Proof. split; [apply promptb_ok; by vm_compute|]. vm_compute. split; reflexivity. Qed.
