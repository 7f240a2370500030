(** Batches that return before their workers are done: what goes on after the
    call (C100), and what the callers can rely on all the same (C101). *)
From stdpp Require Import relations.
From Verif Require Import GoBase FloatModel HeapModel ProgModel StateModel WalModel HnswModel StoreModel CollModel CallModel LinModel EarlyModel
  ProofBase CodecProofs WpProofs StepProofs StoreProofs StoreView WalProofs CallProofs HistProofs HistRun PropStore LinProofs LinTrace LinRun PropLin
  EarlyProofs EarlyRun EarlyTrace.
Open Scope nat_scope.
Local Arguments id_key _ : simpl never.

(** ** Small specifications *)
(** The state of goroutine [t] says that its batch has failed. *)
Definition fails_batch (t : client) : Prop := exists e rs, t = TRet (RBatch (Err e) rs) \/ exists c, t = TX c (XEnd (RBatch (Err e) rs)).
(** What a store returns for a stored object: it always carries a vector. *)
Definition returned_as (o : object) : object := Object (o_id o) (o_props o) (Some (default [] (o_vec o))).

(** ** C100 When a batch call returns, its work is over *)
(** Partial: as long as no batch has failed, nothing is left behind, and the
    runs are exactly those of LinModel, for which C61 to C64 are stated. *)
Theorem C100_batch_is_over_partial : forall C s n vs s' ts' gs',
  erun C (s, replicate n TIdle, []) vs (s', ts', gs') ->
  (forall i e rs, VRet i (RBatch (Err e) rs) ∉ vs) -> Forall (fun t => ~ fails_batch t) ts' ->
  gs' = [] /\ con_run C (s, replicate n TIdle) vs (s', ts').
Proof. intros C s n vs s' ts' gs' Hr Hv Hb. by eapply erun_con. Qed.
Print Assumptions C100_batch_is_over_partial.
Theorem C100_contains_lin : forall C s n vs s' ts',
  con_run C (s, replicate n TIdle) vs (s', ts') -> erun C (s, replicate n TIdle, []) vs (s', ts', []).
Proof. intros C s n vs s' ts' Hr. by apply con_erun. Qed.
Print Assumptions C100_contains_lin.

(** A batch of two objects, two workers; the properties of the first cannot be
    encoded.  The call has returned that error; nobody inserts, updates or
    deletes anything afterwards; and a Get that found nothing finds the object
    when it is made again. *)
Definition bad : object := Object 0 {["a"%string := JNum 10]} (Some [0%N]).
Definition good : object := Object 0 {["a"%string := JNum 1]} (Some [1065353216%N]).
Definition late : object := Object 1 {["a"%string := JNum 1]} (Some [1065353216%N]).
Definition early_moves : list emove :=
  [ MGo 2 0 (CBatch true [(bad, 0); (good, 0)]) 0; MGo 6 0 CSize 0; MEarly 0 EJSON; MGo 5 0 CSize 0;
    MGo 5 1 (CGet [1%N]) 0; MGroup 200 0 1; MGo 5 1 (CGet [1%N]) 0 ].
Definition early_trace : list vis :=
  [ VCall 0 (CBatch true [(bad, 0); (good, 0)]); VRet 0 (RBatch (Err EJSON) []);
    VCall 1 (CGet [1%N]); VRet 1 (RGet (Val [])); VCall 1 (CGet [1%N]); VRet 1 (RGet (Val [late])) ].
Lemma early_run : exists s' gs', erun ex_C_a (empty_st, replicate 2 TIdle, []) early_trace (s', replicate 2 TIdle, gs').
Proof.
  assert (option_map fst (e_exec ex_C_a early_moves (empty_st, replicate 2 TIdle, [])) = Some early_trace) as Hv.
  { vm_compute. reflexivity. }
  assert (option_map (fun x : list vis * esys => x.2.1.2) (e_exec ex_C_a early_moves (empty_st, replicate 2 TIdle, [])) = Some (replicate 2 TIdle)) as Ht.
  { vm_compute. reflexivity. }
  destruct (e_exec ex_C_a _ _) as [[vs [[s' ts'] gs']]|] eqn:Hm; [|discriminate Hv]. apply (inj Some) in Hv, Ht. cbn [fst snd] in Hv, Ht. subst vs ts'.
  exists s', gs'. by apply (e_exec_run ex_C_a _ _ _ _ Hm).
Qed.
Theorem C100_batch_is_over_refuted : exists C s' gs' vs v1 v2 io ol e os,
  erun C (empty_st, replicate 2 TIdle, []) vs (s', replicate 2 TIdle, gs') /\
  vs = v1 ++ VRet 0 (RBatch (Err e) []) :: v2 /\ VCall 0 (CBatch io ol) ∈ v1 /\
  v2 = [VCall 1 (CGet [1%N]); VRet 1 (RGet (Val [])); VCall 1 (CGet [1%N]); VRet 1 (RGet (Val os))] /\ os <> [].
Proof.
  destruct early_run as (s' & gs' & Hr).
  exists ex_C_a, s', gs', early_trace, (take 1 early_trace), (drop 2 early_trace), true, [(bad, 0); (good, 0)], EJSON, [late].
  split_and!; [done|done|by left|done|done].
Qed.
Print Assumptions C100_batch_is_over_refuted.

(** A run without failing batches: an Insert, a batch in the middle, and a Get
    that waits for it. *)
Definition fine_moves : list emove :=
  [ MGo 200 0 (CInsert true 0 good) 0; MGo 8 1 (CBatch true [(good, 0); (good, 1)]) 1; MGo 3 2 (CGet [0%N]) 0 ].
Definition fine_trace : list vis :=
  [ VCall 0 (CInsert true 0 good); VRet 0 (RIns (Val good)); VCall 1 (CBatch true [(good, 0); (good, 1)]); VCall 2 (CGet [0%N]) ].
Definition failing (t : client) : bool := match t with TRet (RBatch (Err _) _) | TX _ (XEnd (RBatch (Err _) _)) => true | _ => false end.
Example C100_case : exists s' ts' gs', erun ex_C_a (empty_st, replicate 3 TIdle, []) fine_trace (s', ts', gs') /\
  (forall i e rs, VRet i (RBatch (Err e) rs) ∉ fine_trace) /\ Forall (fun t => ~ fails_batch t) ts' /\ (exists t, ts' !! 1 = Some t /\ holds_x t).
Proof.
  assert (option_map fst (e_exec ex_C_a fine_moves (empty_st, replicate 3 TIdle, [])) = Some fine_trace) as Hv.
  { vm_compute. reflexivity. }
  assert (option_map (fun x : list vis * esys => (existsb failing x.2.1.2, match x.2.1.2 !! 1 with Some (TX _ _) => true | _ => false end))
    (e_exec ex_C_a fine_moves (empty_st, replicate 3 TIdle, [])) = Some (false, true)) as Ht.
  { vm_compute. reflexivity. }
  destruct (e_exec ex_C_a _ _) as [[vs [[s' ts'] gs']]|] eqn:Hm; [|discriminate Hv]. apply (inj Some) in Hv, Ht. cbn [fst snd] in Hv, Ht. subst vs.
  apply pair_equal_spec in Ht as [H1 H2]. apply e_exec_run in Hm. exists s', ts', gs'. split; [exact Hm|]. clear Hm. split_and!.
  - intros i e rs Hin. unfold fine_trace in Hin. by repeat (apply elem_of_cons in Hin as [Hin|Hin]; [done|]); apply elem_of_nil in Hin.
  - apply Forall_forall. intros t Ht (e & rs & H). assert (existsb failing ts' = true); [|congruence].
    apply existsb_exists. exists t. split; [by apply elem_of_list_In|]. by destruct H as [->|[c ->]].
  - destruct (ts' !! 1) as [t|]; [|discriminate H2]. exists t. split; [reflexivity|]. destruct t; first [exact I|discriminate H2].
Qed.

(** ** C101 A failed batch does no harm to what has been acknowledged *)
Definition wanted (vs : list vis) (k : bytes) : Prop := exists i io id, VCall i (CDelete io id) ∈ vs /\ k = id_key id.
Lemma not_wanted id vs : (id < 2 ^ 64)%N -> ~ asks_delete id vs -> ~ wanted vs (id_key id).
Proof.
  intros Hlt Hn (i & io & id' & Hv & E). apply Hn. exists i, io, id'. split; [done|]. rewrite <- (id_key_u64 id') in E.
  apply id_key_inj in E; [done|done|]. apply N.mod_lt. done.
Qed.
Lemma early_einv C h s n vs m :
  hist C empty_st h s -> (N.of_nat (hist_inserts h + asked vs) < 2 ^ 64)%N -> erun C (s, replicate n TIdle, []) vs m ->
  SInv s /\ (cnt s <= N.of_nat (hist_inserts h))%N /\ (cnt s + N.of_nat (asked vs) < 2 ^ 64)%N /\
  forall D : bytes -> Prop, (forall k, wanted vs k -> D k) -> einv C D (cnt s) s vs m.
Proof.
  intros Hh Hb Hr. destruct (hist0 C h s Hh ltac:(lia)) as [HS Hc]. assert (cnt s + N.of_nat (asked vs) < 2 ^ 64)%N as HM by lia.
  split_and!; [done..|]. intros D HD. eapply einv_run; [done|by apply si_chan|done| |exact Hr].
  intros i io id Hin. apply HD. by exists i, io, id.
Qed.
(** What the books say. *)
Lemma einv_good C D c0 s0 vs s ts gs : einv C D c0 s0 vs (s, ts, gs) -> (c0 + N.of_nat (asked vs) < 2 ^ 64)%N ->
  exists ids, good_ids ids /\ (forall id, id ∈ ids -> (c0 <= id < cnt s)%N) /\ (cnt s <= c0 + N.of_nat (asked vs))%N /\
    o_id <$> mjoin (vacked <$> returned vs) ⊆+ ids /\
    Forall (fun o => ~ D (id_key (o_id o)) -> stored C s o) (mjoin (vacked <$> returned vs)).
Proof.
  intros (cx & gx & rs & HC & HG & [H1 H2 H3 H4 H5] & HA) HM. exists (ids_of rs). rewrite ids_of_app in H1, H2.
  assert (good_ids (ids_of rs)) as Hg.
  { split; [by apply NoDup_app in H1 as [? _]|]. intros id Hid. assert (c0 <= id < cnt s)%N; [apply H2; set_solver|lia]. }
  destruct (HA Hg) as [A1 A2]. split_and!; [done| |lia|done..]. intros id Hid. apply H2. set_solver.
Qed.
Lemma einv_stored C D c0 s0 vs s ts gs i r o : einv C D c0 s0 vs (s, ts, gs) -> (c0 + N.of_nat (asked vs) < 2 ^ 64)%N ->
  VRet i r ∈ vs -> o ∈ vacked r -> (o_id o < 2 ^ 64)%N /\ (~ D (id_key (o_id o)) -> stored C s o).
Proof.
  intros HI HM Hv Ho. destruct (einv_good _ _ _ _ _ _ _ _ HI HM) as (ids & Hg & Hr & Hc & Hs & Hst).
  assert (o ∈ mjoin (vacked <$> returned vs)) as Hin.
  { apply elem_of_list_join. exists (vacked r). split; [done|]. apply elem_of_list_fmap_1. unfold returned. apply elem_of_list_omap. by exists (VRet i r). }
  split.
  - assert (o_id o ∈ ids) as Hid; [|specialize (Hr _ Hid); lia]. eapply elem_of_submseteq; [|exact Hs]. by apply elem_of_list_fmap_1.
  - rewrite Forall_forall in Hst. by apply Hst.
Qed.

(** The ids that calls have returned are all different, and different from all
    earlier ones, with workers of failed batches taking ids at the same time. *)
Theorem C101_ids_distinct : forall C h s n vs s' ts' gs',
  hist C empty_st h s -> (N.of_nat (hist_inserts h + asked vs) < 2 ^ 64)%N ->
  erun C (s, replicate n TIdle, []) vs (s', ts', gs') ->
  NoDup (acked_ids h ++ (o_id <$> mjoin (vacked <$> returned vs))).
Proof.
  intros C h s n vs s' ts' gs' Hh Hb Hr. destruct (early_einv _ _ _ _ _ _ Hh Hb Hr) as (HS & Hc & HM & HI).
  destruct (einv_good _ _ _ _ _ _ _ _ (HI (wanted vs) ltac:(done)) HM) as (ids & [Hn _] & Hrange & _ & Hs & _).
  destruct (hist_ids C empty_st h s SInv_empty) as [N1 N2]; [cbn; lia|done|]. apply NoDup_app. split_and!; [done| |].
  - intros id H1 H2. apply N2 in H1. assert (id ∈ ids) as H3 by (by eapply elem_of_submseteq). apply Hrange in H3. lia.
  - apply submseteq_Permutation in Hs as [k Hk]. rewrite Hk in Hn. by apply NoDup_app in Hn as [? _].
Qed.
Print Assumptions C101_ids_distinct.

(** An acknowledged object that nobody asked to delete is there at every later
    moment, between any two steps of the other goroutines and of the workers
    left behind. *)
Theorem C101_acknowledged_stays : forall C h s n vs s' ts' gs' i r o,
  hist C empty_st h s -> (N.of_nat (hist_inserts h + asked vs) < 2 ^ 64)%N -> (cp_maxval C < 2 ^ 32)%N ->
  erun C (s, replicate n TIdle, []) vs (s', ts', gs') ->
  VRet i r ∈ vs -> o ∈ vacked r -> ~ asks_delete (o_id o) vs ->
  json_ok (cp_json C) (o_props o) -> Forall (fun f => (f < 2 ^ 32)%N) (default [] (o_vec o)) ->
  closed s' = false ->
  exec (CollModel.get C [o_id o]) s' = Some (s', Val [returned_as o]).
Proof.
  intros C h s n vs s' ts' gs' i r o Hh Hb Hm Hr Hv Ho Hnd Hj Hf Hcl. destruct (early_einv _ _ _ _ _ _ Hh Hb Hr) as (HS & Hc & HM & HI).
  destruct (einv_stored _ _ _ _ _ _ _ _ i r o (HI (wanted vs) ltac:(done)) HM Hv Ho) as [Hlt Hst].
  specialize (Hst (not_wanted _ _ Hlt Hnd)). unfold CollModel.get. rewrite exec_act, Hcl. cbn [get_objects].
  by rewrite (sees_get_object C o Hm Hj Hf s' Hst Hcl).
Qed.
Print Assumptions C101_acknowledged_stays.

(** It survives the death of the process at any moment. *)
Theorem C101_acknowledged_survives : forall C h s n vs s' ts' gs' i r o k s2,
  hist C empty_st h s -> (N.of_nat (hist_inserts h + asked vs) < 2 ^ 64)%N -> (cp_maxval C < 2 ^ 32)%N ->
  erun C (s, replicate n TIdle, []) vs (s', ts', gs') ->
  VRet i r ∈ vs -> o ∈ vacked r -> ~ asks_delete (o_id o) vs ->
  json_ok (cp_json C) (o_props o) -> Forall (fun f => (f < 2 ^ 32)%N) (default [] (o_vec o)) ->
  reopen (disk_of (wal_flush_torn k s')) = Val s2 ->
  exec (CollModel.get C [o_id o]) s2 = Some (s2, Val [returned_as o]).
Proof.
  intros C h s n vs s' ts' gs' i r o k s2 Hh Hb Hm Hr Hv Ho Hnd Hj Hf Hre. destruct (early_einv _ _ _ _ _ _ Hh Hb Hr) as (HS & Hc & HM & HI).
  destruct (einv_stored _ _ _ _ _ _ _ _ i r o (HI (wanted vs) ltac:(done)) HM Hv Ho) as [Hlt Hst].
  specialize (Hst (not_wanted _ _ Hlt Hnd)). destruct (reopen_store _ _ Hre) as (_ & _ & R1 & R2 & _ & R3 & _).
  assert (stored C s2 o) as Hst2. { destruct Hst as (ob & vb & ? & ? & ? & ? & ? & ?). exists ob, vb. rewrite R1, R2. by split_and!. }
  unfold CollModel.get. rewrite exec_act, R3. cbn [get_objects]. by rewrite (sees_get_object C o Hm Hj Hf s2 Hst2 R3).
Qed.
Print Assumptions C101_acknowledged_survives.

Lemma reader_run C o ids j m v m' :
  (cp_maxval C < 2 ^ 32)%N -> json_ok (cp_json C) (o_props o) -> Forall (fun f => (f < 2 ^ 32)%N) (default [] (o_vec o)) -> o_id o ∈ ids ->
  erun C m v m' -> (forall w1 w2 s1 ts1 gs1, v = w1 ++ w2 -> erun C m w1 (s1, ts1, gs1) -> stored C s1 o) -> no_return j v ->
  (exists t, m.1.2 !! j = Some t /\ reader C o ids t) -> exists t, m'.1.2 !! j = Some t /\ reader C o ids t.
Proof.
  intros Hm Hj Hf Hid Hr. induction Hr as [m|m w1 m3 w2 m4 R3 IH S]; intros Hst Hnr Hrd0; [done|].
  destruct IH as (t & Ht & Hrd); [|intros x Hx; apply (Hnr x); set_solver|done|].
  { intros u1 u2 s1 ts1 gs1 -> Hr1. eapply (Hst u1 (u2 ++ w2)); [by rewrite app_assoc|done]. }
  destruct m3 as [[s3 ts3] gs3], m4 as [[s4 ts4] gs4]. cbn [fst snd] in *.
  assert (stored C s3 o) as Hs3 by (by eapply (Hst w1 w2)).
  destruct (reader_step C o Hm Hj Hf ids _ _ _ _ _ _ _ j t Hid Hs3 S Ht Hrd) as [[_ H]|(x & -> & _)]; [done|].
  exfalso. apply (Hnr (RGet x)). set_solver.
Qed.
(** Every Get made after the acknowledgement contains it, although its reads
    of the stores are interleaved with the writes of workers left behind. *)
Theorem C101_read_your_writes : forall C h s n v1 i r v2 j ids v3 os v4 m' o,
  let vs := v1 ++ VRet i r :: v2 ++ VCall j (CGet ids) :: v3 ++ VRet j (RGet (Val os)) :: v4 in
  hist C empty_st h s -> (N.of_nat (hist_inserts h + asked vs) < 2 ^ 64)%N -> (cp_maxval C < 2 ^ 32)%N ->
  erun C (s, replicate n TIdle, []) vs m' -> no_return j v3 ->
  o ∈ vacked r -> o_id o ∈ ids -> ~ asks_delete (o_id o) vs ->
  json_ok (cp_json C) (o_props o) -> Forall (fun f => (f < 2 ^ 32)%N) (default [] (o_vec o)) ->
  returned_as o ∈ os.
Proof.
  intros C h s n v1 i r v2 j ids v3 os v4 m' o vs Hh Hb Hm Hr Hnr Ho Hid Hnd Hj Hf.
  destruct (early_einv _ _ _ _ _ _ Hh Hb Hr) as (HS & Hc & HM & _).
  assert (Hst : forall w1 w2 s1 ts1 gs1, vs = w1 ++ w2 -> VRet i r ∈ w1 -> erun C (s, replicate n TIdle, []) w1 (s1, ts1, gs1) -> stored C s1 o).
  { intros w1 w2 s1 ts1 gs1 E Hin Hr1. rewrite E in *. rewrite asked_app in Hb. destruct (early_einv C h s n w1 _ Hh ltac:(lia) Hr1) as (_ & _ & HM1 & HI1).
    assert (HI : einv C (wanted (w1 ++ w2)) (cnt s) s w1 (s1, ts1, gs1)).
    { apply HI1. intros k (a & io & id & Hv & ->). exists a, io, id. set_solver. }
    destruct (einv_stored _ _ _ _ _ _ _ _ i r o HI HM1 Hin Ho) as [Hlt H]. apply H. by apply not_wanted. }
  set (u1 := v1 ++ VRet i r :: v2).
  assert (Evs : vs = u1 ++ VCall j (CGet ids) :: (v3 ++ VRet j (RGet (Val os)) :: v4)) by (unfold vs, u1; by rewrite <- app_assoc).
  destruct (erun_split C _ _ _ u1 (VCall j (CGet ids)) (v3 ++ VRet j (RGet (Val os)) :: v4) Hr Evs) as (m1 & m2 & R1 & S1 & R2).
  assert (R12 : erun C (s, replicate n TIdle, []) (u1 ++ [VCall j (CGet ids)]) m2) by (by eapply ERunSnoc).
  assert (Hu : VRet i r ∈ u1) by (unfold u1; set_solver).
  destruct (erun_split C _ _ _ v3 (VRet j (RGet (Val os))) v4 R2 eq_refl) as (m3 & m4 & R3 & S3 & _).
  assert (Hread : exists t, m2.1.2 !! j = Some t /\ reader C o ids t).
  { inversion S1 as [s1 ts1 gs1 w s1' ts1' Hcs| | | | ]; subst. inversion Hcs as [? ? k u ? ? u' Hk Hcl]; subst.
    inversion Hcl; subst. exists (TCall (CGet ids)). split; [|by left]. cbn. apply list_lookup_insert. by eapply lookup_lt_Some. }
  assert (Hread3 : exists t, m3.1.2 !! j = Some t /\ reader C o ids t).
  { eapply reader_run; [done..|exact R3| |done|done]. intros w1 w2 s1 ts1 gs1 E Hr1. rewrite E in Evs.
    eapply (Hst ((u1 ++ [VCall j (CGet ids)]) ++ w1) (w2 ++ VRet j (RGet (Val os)) :: v4)); [by rewrite Evs, <- !app_assoc|set_solver|by eapply erun_app]. }
  destruct Hread3 as (t & Ht & Hrd). destruct m3 as [[s3 ts3] gs3], m4 as [[s4 ts4] gs4]. cbn [fst snd] in *.
  assert (stored C s3 o) as Hs3.
  { eapply (Hst ((u1 ++ [VCall j (CGet ids)]) ++ v3) (VRet j (RGet (Val os)) :: v4)); [by rewrite Evs, <- !app_assoc|set_solver|by eapply erun_app]. }
  destruct (reader_step C o Hm Hj Hf ids _ _ _ _ _ _ _ j t Hid Hs3 S3 Ht Hrd) as [[H _]|(x & Hx & H)].
  - exfalso. apply (H (RGet (Val os))). by left.
  - injection Hx as <-. by apply H.
Qed.
Print Assumptions C101_read_your_writes.

(** What the collection held before is still there, too. *)
Theorem C101_older_objects_kept : forall C h s n vs s' ts' gs' id o,
  hist C empty_st h s -> (N.of_nat (hist_inserts h + asked vs) < 2 ^ 64)%N ->
  erun C (s, replicate n TIdle, []) vs (s', ts', gs') ->
  exec (CollModel.get C [id]) s = Some (s, Val [o]) -> (id < 2 ^ 64)%N -> ~ asks_delete id vs -> closed s' = false ->
  exec (CollModel.get C [id]) s' = Some (s', Val [o]).
Proof.
  intros C h s n vs s' ts' gs' id o Hh Hb Hr Hg Hlt Hnd Hcl. destruct (early_einv _ _ _ _ _ _ Hh Hb Hr) as (HS & Hc & HM & HI).
  specialize (HI (wanted vs) ltac:(done)). destruct HI as (cx & gx & rs & _ & _ & HW & _). pose proof (not_wanted _ _ Hlt Hnd) as Hw.
  unfold CollModel.get in *. rewrite exec_act in *. rewrite Hcl. destruct (closed s) eqn:Ecs; [done|]. apply Some_pair_inj in Hg as [_ Hg].
  assert (Hsome : is_Some (objs s !! id_key id)).
  { cbn [get_objects] in Hg. unfold get_object in Hg. destruct (objs s !! id_key id) as [ob|]; [by eexists|]. done. }
  destruct (si_keys _ HS (id_key id) (or_introl Hsome)) as (id' & E & Hid'). apply id_key_inj in E as <-; [|done|lia].
  destruct (ew_keep _ _ _ _ _ _ _ HW (id_key id) Hw) as [E1 E2].
  { intros id2 Hin E. assert (cnt s <= id2 < cnt s')%N as H2 by (by apply (ew_range _ _ _ _ _ _ _ HW)).
    assert (cnt s' < 2 ^ 64)%N. { pose proof (ew_bud _ _ _ _ _ _ _ HW). lia. }
    apply id_key_inj in E; [|lia..]. lia. }
  do 2 f_equal. rewrite <- Hg. cbn [get_objects]. unfold get_object. rewrite E1, E2, Hcl, Ecs. done.
Qed.
Print Assumptions C101_older_objects_kept.

(** The log goes on: workers left behind write into the batch of records of
    the next call, in the right order, and the next flush takes them along. *)
Theorem C101_log_goes_on : forall C h s n vs s' ts' gs',
  hist C empty_st h s -> erun C (s, replicate n TIdle, []) vs (s', ts', gs') ->
  (N.of_nat (length (log_view s')) + 1 < 2 ^ 64)%N ->
  (exists l, log_view s' = log_view s ++ l) /\ (exists l, wlog s' = wlog s ++ l) /\
  snd (wal_flush true s') = Val tt /\ wlog (fst (wal_flush true s')) = log_view s'.
Proof.
  intros C h s n vs s' ts' gs' Hh Hr Hl. destruct (erun_wal C _ _ _ _ _ _ Hr) as (Hn & H1 & H2). split_and!; [done..| |].
  all: assert (Hnum : numbered s') by (apply Hn; apply (hist_numbered C h empty_st); [by split|done]);
    pose proof (numbered_in_order _ Hnum Hl) as Ho; unfold wal_flush, log_view; destruct (batch s') as [|x b] eqn:Eb; rewrite ?Ho; try done.
  cbn. by rewrite app_nil_r.
Qed.
Print Assumptions C101_log_goes_on.

(** A run for the theorems: object 0 is inserted; a batch fails and leaves a
    worker that has an id; object 3 is inserted; a Get is half way through when
    the worker writes its object and goes on into the index. *)
Definition mixed_moves : list emove :=
  [ MGo 200 0 (CInsert true 0 good) 0;
    MGo 2 1 (CBatch true [(bad, 0); (good, 0)]) 0; MGo 1 1 CSize 0; MGo 0 1 CSize 1; MEarly 1 EJSON; MGo 5 1 CSize 0;
    MGo 200 0 (CInsert true 0 good) 0;
    MGo 0 2 (CGet [0; 3; 2]%N) 0; MGet 2; MGo 2 2 CSize 0; MGroup 6 0 1; MGo 200 2 CSize 0 ].
Definition numbered_ob (id : N) : object := Object id {["a"%string := JNum 1]} (Some [1065353216%N]).
Definition mixed_trace : list vis :=
  [ VCall 0 (CInsert true 0 good); VRet 0 (RIns (Val (numbered_ob 0)));
    VCall 1 (CBatch true [(bad, 0); (good, 0)]); VRet 1 (RBatch (Err EJSON) []);
    VCall 0 (CInsert true 0 good); VRet 0 (RIns (Val (numbered_ob 3)));
    VCall 2 (CGet [0; 3; 2]%N); VRet 2 (RGet (Val (numbered_ob <$> [0; 3; 2]%N))) ].
Lemma mixed_run : exists s' gs' s2, erun ex_C_a (empty_st, replicate 3 TIdle, []) mixed_trace (s', replicate 3 TIdle, gs') /\
  closed s' = false /\ length (log_view s') < 100 /\ reopen (disk_of (wal_flush_torn 1 s')) = Val s2 /\
  (exists q p w, gs' = [(q, [p; Step w])]).
Proof.
  assert (option_map fst (e_exec ex_C_a mixed_moves (empty_st, replicate 3 TIdle, [])) = Some mixed_trace) as Hv.
  { vm_compute. reflexivity. }
  assert (option_map (fun x : list vis * esys => (x.2.1.2, closed x.2.1.1, length (log_view x.2.1.1) <? 100,
      match reopen (disk_of (wal_flush_torn 1 x.2.1.1)) with Val _ => true | _ => false end, match x.2.2 with [(_, [_; Step _])] => true | _ => false end))
    (e_exec ex_C_a mixed_moves (empty_st, replicate 3 TIdle, [])) = Some (replicate 3 TIdle, false, true, true, true)) as Ht.
  { vm_compute. reflexivity. }
  destruct (e_exec ex_C_a _ _) as [[vs [[s' ts'] gs']]|] eqn:Hm; [|discriminate Hv]. apply e_exec_run in Hm.
  apply (inj Some) in Hv, Ht. cbn [fst snd] in Hv, Ht. subst vs.
  apply pair_equal_spec in Ht as [Ht H5]. apply pair_equal_spec in Ht as [Ht H4]. apply pair_equal_spec in Ht as [Ht H3]. apply pair_equal_spec in Ht as [H1 H2].
  subst ts'. apply Nat.ltb_lt in H3. destruct (reopen _) as [s2| |] eqn:Er; [|discriminate H4..].
  exists s', gs', s2. split; [exact Hm|]. split; [exact H2|]. split; [exact H3|]. split; [exact Er|]. clear -H5.
  destruct gs' as [|[q [|p [|w [|? ?]]]] [|? ?]]; try discriminate H5; destruct w as [r|w]; try discriminate H5. by exists q, p, w.
Qed.
Example C101_case : exists s' gs' s2, hist ex_C_a empty_st [] empty_st /\
  (N.of_nat (hist_inserts [] + asked mixed_trace) < 2 ^ 64)%N /\ (cp_maxval ex_C_a < 2 ^ 32)%N /\
  erun ex_C_a (empty_st, replicate 3 TIdle, []) mixed_trace (s', replicate 3 TIdle, gs') /\
  VRet 0 (RIns (Val (numbered_ob 3))) ∈ mixed_trace /\ numbered_ob 3 ∈ vacked (RIns (Val (numbered_ob 3))) /\ ~ asks_delete 3 mixed_trace /\
  json_ok (cp_json ex_C_a) (o_props (numbered_ob 3)) /\ Forall (fun f => (f < 2 ^ 32)%N) (default [] (o_vec (numbered_ob 3))) /\
  closed s' = false /\ reopen (disk_of (wal_flush_torn 1 s')) = Val s2 /\ (N.of_nat (length (log_view s')) + 1 < 2 ^ 64)%N /\ gs' <> [].
Proof.
  destruct mixed_run as (s' & gs' & s2 & Hr & Hc & Hl & Hre & (q & p & w & Hg)). exists s', gs', s2. split_and!; try done.
  - constructor.
  - unfold mixed_trace. set_solver.
  - by left.
  - intros (i & io & id & Hin & _). unfold mixed_trace in Hin. by repeat (apply elem_of_cons in Hin as [Hin|Hin]; [done|]); apply elem_of_nil in Hin.
  - eexists. split; [reflexivity|]. reflexivity.
  - by repeat constructor.
  - lia.
  - by subst gs'.
Qed.
(** The trace taken apart as in C101_read_your_writes. *)
Example C101_case_read : exists v1 v2 v3 v4,
  mixed_trace = v1 ++ VRet 0 (RIns (Val (numbered_ob 3))) :: v2 ++ VCall 2 (CGet [0; 3; 2]%N) :: v3 ++ VRet 2 (RGet (Val (numbered_ob <$> [0; 3; 2]%N))) :: v4 /\
  no_return 2 v3 /\ returned_as (numbered_ob 3) ∈ numbered_ob <$> [0; 3; 2]%N.
Proof.
  exists (take 5 mixed_trace), [], [], []. split_and!; [done| |].
  - intros r Hin. by apply elem_of_nil in Hin.
  - right. left.
Qed.
(** A collection with a past: object 0 of the history is found before and
    after a run in which a batch fails early. *)
Definition past_moves : list emove :=
  [ MGo 2 1 (CBatch true [(bad, 0); (good, 0)]) 0; MGo 1 1 CSize 0; MGo 0 1 CSize 1; MEarly 1 EJSON; MGo 5 1 CSize 0; MGroup 6 0 1 ].
Example C101_case_older : exists h s vs s' ts' gs' o, hist ex_C_a empty_st h s /\ (N.of_nat (hist_inserts h + asked vs) < 2 ^ 64)%N /\
  erun ex_C_a (s, replicate 3 TIdle, []) vs (s', ts', gs') /\ gs' <> [] /\
  exec (CollModel.get ex_C_a [0%N]) s = Some (s, Val [o]) /\ ~ asks_delete 0 vs /\ closed s' = false.
Proof.
  destruct (script_witness ex_C_a [SCall (CInsert true 0 good); SRestart]
    (fun h s => bool_decide (hist_inserts h = 1) && negb (closed s) && match get_objects ex_json s [0%N] with Val [_] => true | _ => false end &&
      match e_exec ex_C_a past_moves (s, replicate 3 TIdle, []) with
      | Some ([VCall _ (CBatch _ l); VRet _ _], (s', _, _ :: _)) => negb (closed s') && bool_decide (length l = 2) | _ => false end)) as (h & s & Hh & Hs).
  { vm_compute. reflexivity. }
  apply andb_prop in Hs as [Hs H]. apply andb_prop in Hs as [Hs H0]. apply andb_prop in Hs as [H1 Hc]. apply bool_decide_eq_true_1 in H1. apply negb_true_iff in Hc.
  destruct (get_objects ex_json s [0%N]) as [[|o [|? ?]]| |] eqn:Hg; try discriminate H0.
  destruct (e_exec _ _ _) as [[vs [[s' ts'] gs']]|] eqn:Hm; [|discriminate]. apply e_exec_run in Hm.
  destruct vs as [|[i c|] [|[|i' r] [|]]]; try discriminate H; destruct c; try discriminate H. destruct gs' as [|g gs']; [discriminate H|].
  apply andb_prop in H as [Hc' Hl]. apply negb_true_iff in Hc'. apply bool_decide_eq_true_1 in Hl.
  eexists h, s, _, s', ts', (g :: gs'), o. split; [exact Hh|]. split; [|split; [exact Hm|]]. 2: clear Hm; split_and!; [done| | |done].
  - rewrite H1. unfold asked. cbn [called omap list_omap]. cbn. rewrite fmap_length, Hl. done.
  - unfold CollModel.get. rewrite exec_act, Hc. change (cp_json ex_C_a) with ex_json. by rewrite Hg.
  - intros (a & io' & id & Hin & _). by repeat (apply elem_of_cons in Hin as [Hin|Hin]; [done|]); apply elem_of_nil in Hin.
Qed.
