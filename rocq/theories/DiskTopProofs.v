(** Lemmas about DiskAnn: the invariant of concurrent inserts. *)
From Verif Require Import GoBase FloatModel HeapModel MMHeapModel DiskAnnModel DiskTopModel.
From Verif Require Import ProofBase DiskAnnProofs.
Open Scope nat_scope.

(** ** A single insert into a memory index, at any fuel *)
Section mem.
  Context (dist : fvec -> fvec -> out fl) (deleted : gset N).

  Lemma loop_np fuel fuel' g q L h vis acc r : fuel <= fuel' -> r <> Pan PFuel ->
    msearch_loop dist deleted fuel g q L h vis acc = r -> msearch_loop dist deleted fuel' g q L h vis acc = r.
  Proof.
    intros Hle Hr. revert fuel' Hle h vis acc. induction fuel as [|fuel IH]; intros fuel' Hle h vis acc.
    { destruct h; [by destruct fuel'|]. cbn [msearch_loop]. by intros <-. }
    destruct fuel' as [|fuel']; [lia|]. cbn [msearch_loop]. destruct h as [|a h0]; [done|].
    destruct (mm_pop min_less (a :: h0)) as [[m h1]|?|?]; [|done..]. cbn [mbind out_bind].
    case_bool_decide; [apply IH; lia|].
    destruct (g !! e_id m) as [v|]; [|done]. cbn [or_pan mbind out_bind].
    destruct (push_nbrs dist g q (dv_nbrs v) h1 L) as [h2|?|?]; [|done..]. cbn [mbind out_bind]. apply IH. lia.
  Qed.
  Lemma mvisit_np fuel fuel' mi q L r : fuel <= fuel' -> r <> Pan PFuel ->
    mvisit dist deleted fuel mi q L = r -> mvisit dist deleted fuel' mi q L = r.
  Proof.
    intros Hle Hr. unfold mvisit. destruct (mi_graph mi !! mi_s mi) as [sv|]; [|done]. cbn [or_pan mbind out_bind].
    destruct (dist (dv_vec sv) q) as [d|?|?]; [|done..]. cbn [mbind out_bind]. by apply loop_np.
  Qed.
  Lemma minsert_np fuel fuel' mi v L thr id r : fuel <= fuel' -> r <> Pan PFuel ->
    minsert dist deleted fuel mi v L thr id = r -> minsert dist deleted fuel' mi v L thr id = r.
  Proof.
    intros Hle Hr. unfold minsert. destruct (mi_ro mi); [done|]. destruct (negb _); [done|].
    set (mi1 := MIndex _ _ _ _ _ _ _ _). destruct (_ && _); [done|].
    destruct (mvisit dist deleted fuel mi1 v L) as [cs|e|p] eqn:E.
    - by rewrite (mvisit_np fuel fuel' mi1 v L (Val cs) Hle ltac:(done) E).
    - by rewrite (mvisit_np fuel fuel' mi1 v L (Err e) Hle ltac:(done) E).
    - cbn [mbind out_bind]. intros <-. rewrite (mvisit_np fuel fuel' mi1 v L (Pan p) Hle); [done|congruence|done].
  Qed.
  Lemma msearch_np fuel fuel' mi q k L r : fuel <= fuel' -> r <> Pan PFuel ->
    msearch dist deleted fuel mi q k L = r -> msearch dist deleted fuel' mi q k L = r.
  Proof.
    intros Hle Hr. unfold msearch. destruct (mvisit dist deleted fuel mi q L) as [cs|e|p] eqn:E.
    - by rewrite (mvisit_np fuel fuel' mi q L (Val cs) Hle ltac:(done) E).
    - by rewrite (mvisit_np fuel fuel' mi q L (Err e) Hle ltac:(done) E).
    - cbn [mbind out_bind]. intros <-. rewrite (mvisit_np fuel fuel' mi q L (Pan p) Hle); [done|congruence|done].
  Qed.

  Lemma minsert_spec fuel mi v L thr id :
    dist_total dist (mi_dim mi) -> wfm mi ->
    match minsert dist deleted fuel mi v L thr id with
    | Val mi' =>
        mi_ro mi = false /\ N.of_nat (length v) = mi_dim mi /\ wfm mi' /\
        skel (mi_graph mi') = <[id := (id, 0%N, v)]> (skel (mi_graph mi)) /\
        mi_dim mi' = mi_dim mi /\ mi_deg mi' = mi_deg mi /\ mi_first mi' = mi_first mi /\ mi_ro mi' = false /\
        mi_once mi' = true
    | Err e => (e = EReadOnly /\ mi_ro mi = true) \/ (e = EDimensions /\ mi_ro mi = false /\ N.of_nat (length v) <> mi_dim mi)
    | Pan p => mi_ro mi = false /\ N.of_nat (length v) = mi_dim mi /\
               fuel < 1 + work ∅ (<[id := DVertex id 0 [] v]> (mi_graph mi))
    end.
  Proof.
    intros Ht Hw. destruct (mi_ro mi) eqn:Ero.
    { unfold minsert. rewrite Ero. by left. }
    destruct (N.eqb_spec (N.of_nat (length v)) (mi_dim mi)) as [Ed|Ed].
    2:{ unfold minsert. rewrite Ero. destruct (N.eqb_spec (N.of_nat (length v)) (mi_dim mi)); [done|]. by right. }
    set (W := 1 + work ∅ (<[id := DVertex id 0 [] v]> (mi_graph mi))).
    destruct (minsert_ok dist deleted (Nat.max fuel W) mi v L thr id Ht Hw Ero Ed) as (mi' & E & H1 & H2 & H3 & H4 & H5 & H6 & H7 & _); [lia|].
    destruct (minsert dist deleted fuel mi v L thr id) as [mi1|e|p] eqn:E1.
    - rewrite (minsert_np fuel (Nat.max fuel W) mi v L thr id (Val mi1)) in E by (done || lia). apply Val_inj in E as ->. done.
    - rewrite (minsert_np fuel (Nat.max fuel W) mi v L thr id (Err e)) in E by (done || lia). done.
    - split_and!; [done|done|]. destruct (decide (fuel < W)) as [|Hge]; [done|].
      replace (Nat.max fuel W) with fuel in E by lia. congruence.
  Qed.
End mem.

(** ** The invariant *)
Definition pc_id (pc : ipc) : option N :=
  match pc with IHasId id | IAt id _ | IRet id _ _ => Some id | _ => None end.
Definition holds (pc : ipc) : bool := match pc with IMarked | IAppended => true | _ => false end.
Definition has_id (cl : icall) : Prop := is_Some (pc_id (ic_pc cl)).
Global Instance has_id_dec cl : Decision (has_id cl).
Proof. unfold has_id. apply _. Defined.
Definition nids (calls : list icall) : nat := length (filter has_id calls).

Lemma nids_le calls : nids calls <= length calls.
Proof. unfold nids. apply filter_length. Qed.
Lemma nids_set calls i cl cl' : calls !! i = Some cl ->
  nids (<[i := cl']> calls) + (if decide (has_id cl) then 1 else 0) = nids calls + (if decide (has_id cl') then 1 else 0).
Proof.
  intros H. unfold nids. apply lookup_lt_Some in H as Hi.
  rewrite insert_take_drop by done. rewrite <- (take_drop_middle calls i cl H) at 3.
  rewrite !filter_app, !filter_cons, !app_length. repeat case_decide; cbn [length]; lia.
Qed.
Lemma nids_app calls v obj : nids (calls ++ [ICall v obj IStart]) = nids calls.
Proof.
  unfold nids. rewrite filter_app, filter_cons, decide_False, app_nil_r; [done|].
  intros [x Hx]. done.
Qed.

Record DInv (c : dcfg) (s : dsys) : Prop := {
  di_cur : da_cur (ds_da s) = (1 + N.of_nat (nids (ds_calls s)))%N;
  di_id : forall i cl id, ds_calls s !! i = Some cl -> pc_id (ic_pc cl) = Some id -> (1 <= id < da_cur (ds_da s))%N;
  di_uniq : forall i j ci cj id, ds_calls s !! i = Some ci -> ds_calls s !! j = Some cj ->
    pc_id (ic_pc ci) = Some id -> pc_id (ic_pc cj) = Some id -> i = j;
  di_rw : length (da_mem (ds_da s)) = S (da_rw (ds_da s));
  di_lock : forall i cl, ds_calls s !! i = Some cl -> holds (ic_pc cl) = true -> da_lock (ds_da s) = true;
  di_held : da_lock (ds_da s) = true -> exists i cl, ds_calls s !! i = Some cl /\ holds (ic_pc cl) = true;
  di_one : forall i j ci cj, ds_calls s !! i = Some ci -> ds_calls s !! j = Some cj ->
    holds (ic_pc ci) = true -> holds (ic_pc cj) = true -> i = j;
  di_ro : da_ro (ds_da s) = seq 0 (da_rw (ds_da s)) \/
    (da_ro (ds_da s) = seq 0 (S (da_rw (ds_da s))) /\
     exists i cl, ds_calls s !! i = Some cl /\ ic_pc cl = IAppended);
  di_marked : forall i cl, ds_calls s !! i = Some cl -> ic_pc cl = IMarked -> da_ro (ds_da s) = seq 0 (da_rw (ds_da s));
  di_app : forall i cl, ds_calls s !! i = Some cl -> ic_pc cl = IAppended -> da_ro (ds_da s) = seq 0 (S (da_rw (ds_da s)));
  di_mem : forall p mi, da_mem (ds_da s) !! p = Some mi ->
    wfm mi /\ mi_dim mi = dc_dim c /\ mi_deg mi = dc_deg c /\
    (mi_ro mi = true <-> p < da_rw (ds_da s) \/ exists i cl, ds_calls s !! i = Some cl /\ holds (ic_pc cl) = true);
  di_at : forall i cl id p, ds_calls s !! i = Some cl -> ic_pc cl = IAt id p -> p <= da_rw (ds_da s);
  di_stored : forall p mi id x, da_mem (ds_da s) !! p = Some mi ->
    (skel (mi_graph mi) !! id = Some x <->
     exists i cl, ds_calls s !! i = Some cl /\ ic_pc cl = IRet id p (Val tt) /\ x = (id, 0%N, ic_vec cl));
  di_ret : forall i cl id p r, ds_calls s !! i = Some cl -> ic_pc cl = IRet id p r ->
    p <= da_rw (ds_da s) /\
    ((r = Val tt /\ N.of_nat (length (ic_vec cl)) = dc_dim c) \/
     (r = Err EDimensions /\ N.of_nat (length (ic_vec cl)) <> dc_dim c) \/
     (r = Err EReadOnly /\ exists mi, da_mem (ds_da s) !! p = Some mi /\ mi_ro mi = true))
}.

Lemma DInv_init c : DInv c (dinit c).
Proof.
  split; cbn [dinit ds_da ds_calls new_dann da_cur da_mem da_rw da_lock da_ro]; try done; try (intros; done).
  - by left.
  - intros p mi H. apply list_lookup_singleton_Some in H as [-> <-]. cbn [new_mindex mi_dim mi_deg mi_ro].
    split; [|split; [done|split; [done|]]].
    + split_and!; cbn; try done; intros i v Hv; by rewrite lookup_empty in Hv.
    + split; [done|]. intros [?|(? & ? & ? & _)]; [lia|done].
  - intros p mi id x H. apply list_lookup_singleton_Some in H as [-> <-]. cbn [new_mindex mi_graph]. unfold skel. rewrite fmap_empty, lookup_empty.
    split; [done|]. by intros (? & ? & ? & _).
Qed.

(** ** Preservation *)
Lemma call_inv c s v obj : DInv c s -> DInv c (DSys (ds_da s) (ds_calls s ++ [ICall v obj IStart])).
Proof.
  intros H. destruct s as [da calls].
  assert (Hl : forall i cl, (calls ++ [ICall v obj IStart]) !! i = Some cl -> calls !! i = Some cl \/ cl = ICall v obj IStart).
  { intros i cl [?|[_ E]]%lookup_app_Some; [by left|]. apply list_lookup_singleton_Some in E as [_ <-]. by right. }
  assert (Hr : forall i cl, calls !! i = Some cl -> (calls ++ [ICall v obj IStart]) !! i = Some cl).
  { intros. by apply lookup_app_l_Some. }
  assert (He : forall (P : icall -> Prop), ~ P (ICall v obj IStart) ->
    (exists i cl, (calls ++ [ICall v obj IStart]) !! i = Some cl /\ P cl) <-> (exists i cl, calls !! i = Some cl /\ P cl)).
  { intros P HP. split; intros (i & cl & E & HPc); exists i, cl; [|by auto]. destruct (Hl _ _ E) as [?| ->]; [done|done]. }
  split; cbn [ds_da ds_calls].
  - rewrite nids_app. apply (di_cur c _ H).
  - intros i cl id E Ei. destruct (Hl _ _ E) as [E'| ->]; [|done]. by apply (di_id c _ H i cl id).
  - intros i j ci cj id E1 E2 P1 P2. destruct (Hl _ _ E1) as [E1'| ->]; [|done]. destruct (Hl _ _ E2) as [E2'| ->]; [|done].
    by apply (di_uniq c _ H i j ci cj id).
  - apply (di_rw c _ H).
  - intros i cl E P. destruct (Hl _ _ E) as [E'| ->]; [|done]. by apply (di_lock c _ H i cl).
  - intros E. apply He; [done|]. by apply (di_held c _ H).
  - intros i j ci cj E1 E2 P1 P2. destruct (Hl _ _ E1) as [E1'| ->]; [|done]. destruct (Hl _ _ E2) as [E2'| ->]; [|done].
    by apply (di_one c _ H i j ci cj).
  - destruct (di_ro c _ H) as [?|[? (i & cl & E & P)]]; [by left|]. right. split; [done|]. exists i, cl. auto.
  - intros i cl E P. destruct (Hl _ _ E) as [E'| ->]; [|done]. by apply (di_marked c _ H i cl).
  - intros i cl E P. destruct (Hl _ _ E) as [E'| ->]; [|done]. by apply (di_app c _ H i cl).
  - intros p mi E. destruct (di_mem c _ H p mi E) as (H1 & H2 & H3 & H4). split; [exact H1|]. split; [exact H2|]. split; [exact H3|].
    rewrite H4. apply or_iff_compat_l. symmetry. by apply (He (fun cl => holds (ic_pc cl) = true)).
  - intros i cl id p E P. destruct (Hl _ _ E) as [E'| ->]; [|done]. by apply (di_at c _ H i cl id p).
  - intros p mi id x E. rewrite (di_stored c _ H p mi id x E). symmetry.
    apply (He (fun cl => ic_pc cl = IRet id p (Val tt) /\ x = (id, 0%N, ic_vec cl))). by intros [? _].
  - intros i cl id p r E P. destruct (Hl _ _ E) as [E'| ->]; [|done]. by apply (di_ret c _ H i cl id p r).
Qed.

Lemma delete_inv c s obj : DInv c s -> DInv c (DSys (da_delete (ds_da s) obj) (ds_calls s)).
Proof. intros []. by split. Qed.
Lemma snap_inv c s ok da : DInv c s -> snap_step (ds_da s) ok = Val da -> DInv c (DSys da (ds_calls s)).
Proof.
  intros H E. unfold snap_step in E. destruct (da_pend (ds_da s)) as [|n] eqn:Ep.
  { apply Val_inj in E as <-. by destruct s. }
  destruct (da_mem (ds_da s) !! da_rw (ds_da s)) as [mi|]; [|done]. cbn [or_pan mbind out_bind] in E.
  destruct (write_index mi) as [f|?|?]; [|done..]. cbn [mbind out_bind] in E. apply Val_inj in E as <-. destruct H. by split.
Qed.

Ltac by_pc E := first [done | by rewrite E].
Section step.
  Context (c : dcfg) (fuel : nat) (Ht : dist_total (dc_fn c) (dc_dim c)).

  Lemma dist_total_at mi : mi_dim mi = dc_dim c -> dist_total (dc_fn c) (mi_dim mi).
  Proof using Ht. intros ->. exact Ht. Qed.

  (** how the other calls look after call [i] moved *)
  Lemma step_inv s i cl da' pc' :
    DInv c s -> (N.of_nat (length (ds_calls s)) < 2 ^ 64 - 1)%N -> ds_calls s !! i = Some cl ->
    istep c fuel (ds_da s) (ic_vec cl) (ic_pc cl) = Val (Some (da', pc')) ->
    DInv c (DSys da' (<[i := ICall (ic_vec cl) (ic_obj cl) pc']> (ds_calls s))).
  Proof using Ht.
    intros H Hlen Hi E. destruct s as [da calls]. cbn [ds_da ds_calls] in *.
    set (cl' := ICall (ic_vec cl) (ic_obj cl) pc').
    assert (Hil : i < length calls) by (by eapply lookup_lt_Some).
    assert (Hl : forall j cj, <[i := cl']> calls !! j = Some cj -> (j = i /\ cj = cl') \/ (j <> i /\ calls !! j = Some cj)).
    { intros j cj [(-> & -> & _)|[Hne Hj]]%list_lookup_insert_Some; [by left|right; by split]. }
    assert (Hr : forall j cj, j <> i -> calls !! j = Some cj -> <[i := cl']> calls !! j = Some cj).
    { intros. by rewrite list_lookup_insert_ne. }
    assert (Hii : <[i := cl']> calls !! i = Some cl') by (by apply list_lookup_insert).
    pose proof (nids_set calls i cl cl' Hi) as Hn. pose proof (nids_le calls) as Hnl.
    pose proof (di_cur c _ H) as Hcur. pose proof (di_rw c _ H) as Hrw. cbn [ds_da ds_calls] in Hcur, Hrw.
    (* what no clause about the calls notices *)
    assert (Hret : (forall jd p r, ic_pc cl <> IRet jd p r) -> (forall jd p, pc' <> IRet jd p (Val tt)) -> forall jd p x,
      (exists (j : nat) (cj : icall), <[i:=cl']> calls !! j = Some cj /\ ic_pc cj = IRet jd p (Val tt) /\ x = (jd, 0%N, ic_vec cj)) <->
      (exists (j : nat) (cj : icall), calls !! j = Some cj /\ ic_pc cj = IRet jd p (Val tt) /\ x = (jd, 0%N, ic_vec cj))).
    { intros Hc Hc' jd p x. split; intros (j & cj & Ej & Pj & Xj).
      - destruct (Hl _ _ Ej) as [[-> ->]|[_ Ej']]; [by apply Hc' in Pj|]. by exists j, cj.
      - exists j, cj. split; [|done]. apply Hr; [|done]. intros ->. rewrite Hi in Ej. injection Ej as ->. by apply Hc in Pj. }
    assert (Hhold : holds pc' = holds (ic_pc cl) ->
      (exists (j : nat) (cj : icall), <[i:=cl']> calls !! j = Some cj /\ holds (ic_pc cj) = true) <->
      (exists (j : nat) (cj : icall), calls !! j = Some cj /\ holds (ic_pc cj) = true)).
    { intros Hh. split; intros (j & cj & Ej & Pj).
      - destruct (Hl _ _ Ej) as [[-> ->]|[_ Ej']]; [exists i, cl; split; [done|]; by rewrite <- Hh|by exists j, cj].
      - destruct (decide (j = i)) as [->|Hne]; [|exists j, cj; auto]. rewrite Hi in Ej. injection Ej as ->. exists i, cl'. split; [done|].
        unfold cl'. cbn [ic_pc]. by rewrite Hh. }
    assert (Hid : pc_id pc' = pc_id (ic_pc cl) -> (forall (j : nat) (cj : icall) jd, <[i:=cl']> calls !! j = Some cj -> pc_id (ic_pc cj) = Some jd ->
      exists cj0, calls !! j = Some cj0 /\ pc_id (ic_pc cj0) = Some jd)).
    { intros Hp j cj jd Ej Pj. destruct (Hl _ _ Ej) as [[-> ->]|[_ Ej']]; [exists cl; split; [done|]; by rewrite <- Hp|by exists cj]. }
    assert (Hho : holds pc' = holds (ic_pc cl) -> (forall (j : nat) (cj : icall), <[i:=cl']> calls !! j = Some cj -> holds (ic_pc cj) = true ->
      exists cj0, calls !! j = Some cj0 /\ holds (ic_pc cj0) = true)).
    { intros Hp j cj Ej Pj. destruct (Hl _ _ Ej) as [[-> ->]|[_ Ej']]; [exists cl; split; [done|]; by rewrite <- Hp|by exists cj]. }
    assert (Hnid : pc_id pc' = pc_id (ic_pc cl) -> nids (<[i:=cl']> calls) = nids calls).
    { intros Hp. assert (has_id cl' <-> has_id cl) as Hh by (unfold has_id, cl'; cbn [ic_pc]; by rewrite Hp).
      clear - Hn Hh. repeat case_decide; (lia || tauto). }
    destruct (ic_pc cl) as [| | | |id|id p|id p r] eqn:Epc; cbn [istep] in E.
    - (* IStart *)
      destruct (da_lock da) eqn:El; [done|].
      assert (Hnoh : forall j cj, calls !! j = Some cj -> holds (ic_pc cj) = false).
      { intros j cj Ej. destruct (holds (ic_pc cj)) eqn:Eh; [|done]. apply (di_lock c _ H) in Ej; [|done]. cbn in Ej. congruence. }
      destruct (da_mem da !! da_rw da) as [mi|] eqn:Emi; [|done]. cbn [or_pan mbind out_bind] in E.
      rewrite !decide_False in Hn; [| |unfold has_id; rewrite Epc; by intros [? ?]].
      2:{ unfold has_id, cl'. cbn [ic_pc]. destruct (mi_count mi =? dc_limit c)%N; apply Val_inj in E; injection E as <- <-; by intros [? ?]. }
      assert (Hrwl : da_rw da < length (da_mem da)) by (by eapply lookup_lt_Some).
      destruct (mi_count mi =? dc_limit c)%N; apply Val_inj in E; injection E as <- <-.
      + (* rotation *)
        split; cbn [ds_da ds_calls da_cur da_mem da_rw da_lock da_ro].
        * lia.
        * intros j cj jd Ej Pj. destruct (Hl _ _ Ej) as [[-> ->]|[_ Ej']]; [done|]. by apply (di_id c _ H j cj jd).
        * intros j k cj ck jd Ej Ek Pj Pk. destruct (Hl _ _ Ej) as [[-> ->]|[_ Ej']]; [done|]. destruct (Hl _ _ Ek) as [[-> ->]|[_ Ek']]; [done|].
          by apply (di_uniq c _ H j k cj ck jd).
        * rewrite insert_length. apply (di_rw c _ H).
        * done.
        * intros _. by exists i, cl'.
        * intros j k cj ck Ej Ek Pj Pk. destruct (Hl _ _ Ej) as [[-> ->]|[_ Ej']]; destruct (Hl _ _ Ek) as [[-> ->]|[_ Ek']]; try done.
          -- apply Hnoh in Ek'. congruence.
          -- apply Hnoh in Ej'. congruence.
          -- apply Hnoh in Ej'. congruence.
        * destruct (di_ro c _ H) as [?|[_ (j & cj & Ej & Pj)]]; [by left|]. apply Hnoh in Ej. by rewrite Pj in Ej.
        * intros _ _ _ _. destruct (di_ro c _ H) as [?|[_ (j & cj & Ej & Pj)]]; [done|]. apply Hnoh in Ej. by rewrite Pj in Ej.
        * intros j cj Ej Pj. destruct (Hl _ _ Ej) as [[-> ->]|[_ Ej']]; [done|]. apply Hnoh in Ej'. by rewrite Pj in Ej'.
        * intros p m Em. apply list_lookup_insert_Some in Em as [(<- & <- & _)|[Hp Em]].
          -- destruct (di_mem c _ H _ mi Emi) as (H1 & H2 & H3 & _). cbn [mi_close mi_dim mi_deg mi_ro]. split; [exact H1|]. split; [exact H2|]. split; [exact H3|].
             split; [|done]. intros _. right. by exists i, cl'.
          -- destruct (di_mem c _ H _ m Em) as (H1 & H2 & H3 & H4). split; [exact H1|]. split; [exact H2|]. split; [exact H3|]. rewrite H4. cbn [ds_da ds_calls].
             apply lookup_lt_Some in Em. split; [intros _; left; lia|intros _; left; lia].
        * intros j cj jd p Ej Pj. destruct (Hl _ _ Ej) as [[-> ->]|[_ Ej']]; [done|]. by apply (di_at c _ H j cj jd p).
        * intros p m jd x Em.
          assert (Hex : (exists (j : nat) (cj : icall), <[i:=cl']> calls !! j = Some cj /\ ic_pc cj = IRet jd p (Val tt) /\ x = (jd, 0%N, ic_vec cj)) <->
                        (exists (j : nat) (cj : icall), calls !! j = Some cj /\ ic_pc cj = IRet jd p (Val tt) /\ x = (jd, 0%N, ic_vec cj))).
          { split; intros (j & cj & Ej & Pj & Xj).
            - destruct (Hl _ _ Ej) as [[-> ->]|[_ Ej']]; [done|]. by exists j, cj.
            - exists j, cj. split; [|done]. apply Hr; [|done]. intros ->. rewrite Hi in Ej. injection Ej as ->. by rewrite Epc in Pj. }
          rewrite Hex. apply list_lookup_insert_Some in Em as [(<- & <- & _)|[Hp Em]].
          -- apply (di_stored c _ H _ mi jd x Emi).
          -- apply (di_stored c _ H _ m jd x Em).
        * intros j cj jd p r Ej Pj. destruct (Hl _ _ Ej) as [[-> ->]|[_ Ej']]; [done|].
          destruct (di_ret c _ H j cj jd p r Ej' Pj) as [Hp [?|[?|[Hre (m & Em & Rm)]]]]; cbn [ds_da] in *; (split; [done|]); [by left|by right; left|right; right].
          split; [done|]. destruct (decide (p = da_rw da)) as [->|Hne].
          -- exists (mi_close mi). split; [by apply list_lookup_insert|done].
          -- exists m. by rewrite list_lookup_insert_ne.
      + (* no rotation *)
        split; cbn [ds_da ds_calls].
        * lia.
        * intros j cj jd Ej Pj. destruct (Hl _ _ Ej) as [[-> ->]|[_ Ej']]; [done|]. by apply (di_id c _ H j cj jd).
        * intros j k cj ck jd Ej Ek Pj Pk. destruct (Hl _ _ Ej) as [[-> ->]|[_ Ej']]; [done|]. destruct (Hl _ _ Ek) as [[-> ->]|[_ Ek']]; [done|].
          by apply (di_uniq c _ H j k cj ck jd).
        * apply (di_rw c _ H).
        * intros j cj Ej Pj. destruct (Hl _ _ Ej) as [[-> ->]|[_ Ej']]; [done|]. by apply (di_lock c _ H j cj).
        * intros E'. congruence.
        * intros j k cj ck Ej Ek Pj Pk. destruct (Hl _ _ Ej) as [[-> ->]|[_ Ej']]; [done|]. destruct (Hl _ _ Ek) as [[-> ->]|[_ Ek']]; [done|].
          by apply (di_one c _ H j k cj ck).
        * destruct (di_ro c _ H) as [?|[_ (j & cj & Ej & Pj)]]; [by left|]. apply Hnoh in Ej. by rewrite Pj in Ej.
        * intros j cj Ej Pj. destruct (Hl _ _ Ej) as [[-> ->]|[_ Ej']]; [done|]. by apply (di_marked c _ H j cj).
        * intros j cj Ej Pj. destruct (Hl _ _ Ej) as [[-> ->]|[_ Ej']]; [done|]. by apply (di_app c _ H j cj).
        * intros p m Em. destruct (di_mem c _ H _ m Em) as (H1 & H2 & H3 & H4). split; [exact H1|]. split; [exact H2|]. split; [exact H3|]. rewrite H4. cbn [ds_da ds_calls].
          apply or_iff_compat_l. split; intros (j & cj & Ej & Pj).
          -- apply Hnoh in Ej. congruence.
          -- destruct (Hl _ _ Ej) as [[-> ->]|[_ Ej']]; [done|]. apply Hnoh in Ej'. congruence.
        * intros j cj jd p Ej Pj. destruct (Hl _ _ Ej) as [[-> ->]|[_ Ej']]; [done|]. by apply (di_at c _ H j cj jd p).
        * intros p m jd x Em. rewrite (di_stored c _ H _ m jd x Em). cbn [ds_calls]. split; intros (j & cj & Ej & Pj & Xj).
          -- exists j, cj. split; [|done]. apply Hr; [|done]. intros ->. rewrite Hi in Ej. injection Ej as ->. by rewrite Epc in Pj.
          -- destruct (Hl _ _ Ej) as [[-> ->]|[_ Ej']]; [done|]. by exists j, cj.
        * intros j cj jd p r Ej Pj. destruct (Hl _ _ Ej) as [[-> ->]|[_ Ej']]; [done|]. by apply (di_ret c _ H j cj jd p r).
    - (* IMarked *)
      apply Val_inj in E. injection E as <- <-.
      assert (Hone : forall j cj, j <> i -> calls !! j = Some cj -> holds (ic_pc cj) = false).
      { intros j cj Hne Ej. destruct (holds (ic_pc cj)) eqn:Eh; [|done]. exfalso. apply Hne. apply (di_one c _ H j i cj cl); try done. by_pc Epc. }
      split; cbn [ds_da ds_calls da_cur da_mem da_rw da_lock da_ro].
      + rewrite Hnid; [done|by_pc Epc].
      + intros j cj jd Ej Pj. destruct (Hid ltac:(by_pc Epc) _ _ _ Ej Pj) as (c0 & E0 & P0). by apply (di_id c _ H j c0 jd).
      + intros j k cj ck jd Ej Ek Pj Pk. destruct (Hid ltac:(by_pc Epc) _ _ _ Ej Pj) as (c0 & E0 & P0).
        destruct (Hid ltac:(by_pc Epc) _ _ _ Ek Pk) as (c1 & E1 & P1). by apply (di_uniq c _ H j k c0 c1 jd).
      + done.
      + intros j cj Ej Pj. destruct (Hho ltac:(by_pc Epc) _ _ Ej Pj) as (c0 & E0 & P0). by apply (di_lock c _ H j c0).
      + intros El. by exists i, cl'.
      + intros j k cj ck Ej Ek Pj Pk. destruct (Hho ltac:(by_pc Epc) _ _ Ej Pj) as (c0 & E0 & P0).
        destruct (Hho ltac:(by_pc Epc) _ _ Ek Pk) as (c1 & E1 & P1). by apply (di_one c _ H j k c0 c1).
      + right. split; [|by exists i, cl']. pose proof (di_marked c _ H i cl Hi Epc) as Hm. cbn [ds_da] in Hm. rewrite Hm. by rewrite seq_S.
      + intros j cj Ej Pj. destruct (Hl _ _ Ej) as [[-> ->]|[Hne Ej']]; [done|]. apply Hone in Ej'; [|done]. by rewrite Pj in Ej'.
      + intros _ _ _ _. pose proof (di_marked c _ H i cl Hi Epc) as Hm. cbn [ds_da] in Hm. rewrite Hm. by rewrite seq_S.
      + intros p m Em. destruct (di_mem c _ H _ m Em) as (H1 & H2 & H3 & H4). split; [exact H1|]. split; [exact H2|]. split; [exact H3|].
        rewrite H4. cbn [ds_da ds_calls]. rewrite Hhold; [done|by_pc Epc].
      + intros j cj jd p Ej Pj. destruct (Hl _ _ Ej) as [[-> ->]|[_ Ej']]; [done|]. by apply (di_at c _ H j cj jd p).
      + intros p m jd x Em. rewrite (di_stored c _ H _ m jd x Em). cbn [ds_calls]. rewrite Hret; [done|by_pc Epc|done].
      + intros j cj jd p r Ej Pj. destruct (Hl _ _ Ej) as [[-> ->]|[_ Ej']]; [done|]. by apply (di_ret c _ H j cj jd p r).
    - (* IAppended *)
      apply Val_inj in E. injection E as <- <-.
      assert (Hone : forall j cj, j <> i -> calls !! j = Some cj -> holds (ic_pc cj) = false).
      { intros j cj Hne Ej. destruct (holds (ic_pc cj)) eqn:Eh; [|done]. exfalso. apply Hne. apply (di_one c _ H j i cj cl); try done. by_pc Epc. }
      assert (Hnoh : forall j cj, <[i := cl']> calls !! j = Some cj -> holds (ic_pc cj) = false).
      { intros j cj Ej. destruct (Hl _ _ Ej) as [[-> ->]|[Hne Ej']]; [done|by eapply Hone]. }
      split; cbn [ds_da ds_calls da_cur da_mem da_rw da_lock da_ro].
      + rewrite Hnid; [done|by_pc Epc].
      + intros j cj jd Ej Pj. destruct (Hid ltac:(by_pc Epc) _ _ _ Ej Pj) as (c0 & E0 & P0). by apply (di_id c _ H j c0 jd).
      + intros j k cj ck jd Ej Ek Pj Pk. destruct (Hid ltac:(by_pc Epc) _ _ _ Ej Pj) as (c0 & E0 & P0).
        destruct (Hid ltac:(by_pc Epc) _ _ _ Ek Pk) as (c1 & E1 & P1). by apply (di_uniq c _ H j k c0 c1 jd).
      + rewrite app_length. cbn. lia.
      + intros j cj Ej Pj. apply Hnoh in Ej. congruence.
      + done.
      + intros j k cj ck Ej Ek Pj Pk. apply Hnoh in Ej. congruence.
      + left. pose proof (di_app c _ H i cl Hi Epc) as Hm. cbn [ds_da] in Hm. rewrite Hm. by rewrite Hrw.
      + intros j cj Ej Pj. apply Hnoh in Ej. by rewrite Pj in Ej.
      + intros j cj Ej Pj. apply Hnoh in Ej. by rewrite Pj in Ej.
      + intros p m [Em|[Hp Em]]%lookup_app_Some.
        * destruct (di_mem c _ H _ m Em) as (H1 & H2 & H3 & H4). split; [exact H1|]. split; [exact H2|]. split; [exact H3|].
          rewrite H4. cbn [ds_da ds_calls]. apply lookup_lt_Some in Em. split; [intros _; by left|]. intros _. right. exists i, cl. by_pc Epc.
        * apply list_lookup_singleton_Some in Em as [Hp0 <-]. split; [|split; [done|split; [done|]]].
          -- split_and!; cbn; try done; intros j v Hv; by rewrite lookup_empty in Hv.
          -- cbn [new_mindex mi_ro]. split; [done|]. intros [?|(j & cj & Ej & Pj)]; [lia|]. apply Hnoh in Ej. congruence.
      + intros j cj jd p Ej Pj. destruct (Hl _ _ Ej) as [[-> ->]|[_ Ej']]; [done|]. pose proof (di_at c _ H j cj jd p Ej' Pj). cbn [ds_da] in *. lia.
      + intros p m jd x [Em|[Hp Em]]%lookup_app_Some; rewrite (Hret ltac:(by_pc Epc) ltac:(done)).
        * by rewrite (di_stored c _ H _ m jd x Em).
        * apply list_lookup_singleton_Some in Em as [Hp0 <-]. cbn [new_mindex mi_graph]. unfold skel. rewrite fmap_empty, lookup_empty.
          split; [done|]. intros (j & cj & Ej & Pj & _). destruct (di_ret c _ H j cj _ _ _ Ej Pj) as [Hp' _]. cbn [ds_da] in *. lia.
      + intros j cj jd p r Ej Pj. destruct (Hl _ _ Ej) as [[-> ->]|[_ Ej']]; [done|].
        destruct (di_ret c _ H j cj jd p r Ej' Pj) as [Hp [?|[?|[Hre (m & Em & Rm)]]]]; cbn [ds_da] in *; (split; [lia|]); [by left|by right; left|right; right].
        split; [done|]. exists m. split; [|done]. by apply lookup_app_l_Some.
    - (* IFree *)
      apply Val_inj in E. injection E as <- E. 
      assert (Hn' : nids (<[i:=cl']> calls) = S (nids calls)).
      { rewrite (decide_False (P := has_id cl)), (decide_True (P := has_id cl')) in Hn; [lia|unfold has_id, cl'; cbn [ic_pc]; rewrite <- E; by eexists|]. unfold has_id. rewrite Epc. by intros [? ?]. }
      pose proof (nids_le (<[i:=cl']> calls)) as Hnl'. rewrite insert_length in Hnl'.
      assert (Hc1 : u64 (da_cur da + 1) = (da_cur da + 1)%N) by (apply N.mod_small; lia).
      assert (Hc2 : u64 (u64 (da_cur da + 1) + 2 ^ 64 - 1) = da_cur da).
      { rewrite Hc1. unfold u64. replace (da_cur da + 1 + 2 ^ 64 - 1)%N with (da_cur da + 1 * 2 ^ 64)%N by lia. rewrite N.mod_add by lia. apply N.mod_small. lia. }
      rewrite Hc1 in *. rewrite Hc2 in E. subst pc'.
      split; cbn [ds_da ds_calls da_cur da_mem da_rw da_lock da_ro].
      + lia.
      + intros j cj jd Ej Pj. destruct (Hl _ _ Ej) as [[-> ->]|[_ Ej']].
        * injection Pj as <-. lia.
        * pose proof (di_id c _ H j cj jd Ej' Pj). cbn [ds_da] in *. lia.
      + intros j k cj ck jd Ej Ek Pj Pk. destruct (Hl _ _ Ej) as [[-> ->]|[_ Ej']]; destruct (Hl _ _ Ek) as [[-> ->]|[_ Ek']]; try done.
        * injection Pj as <-. pose proof (di_id c _ H k ck _ Ek' Pk). cbn [ds_da] in *. lia.
        * injection Pk as <-. pose proof (di_id c _ H j cj _ Ej' Pj). cbn [ds_da] in *. lia.
        * by apply (di_uniq c _ H j k cj ck jd).
      + done.
      + intros j cj Ej Pj. destruct (Hho ltac:(by_pc Epc) _ _ Ej Pj) as (c0 & E0 & P0). by apply (di_lock c _ H j c0).
      + intros El. apply Hhold; [by_pc Epc|]. by apply (di_held c _ H).
      + intros j k cj ck Ej Ek Pj Pk. destruct (Hho ltac:(by_pc Epc) _ _ Ej Pj) as (c0 & E0 & P0).
        destruct (Hho ltac:(by_pc Epc) _ _ Ek Pk) as (c1 & E1 & P1). by apply (di_one c _ H j k c0 c1).
      + destruct (di_ro c _ H) as [?|[? (j & cj & Ej & Pj)]]; [by left|]. right. split; [done|]. exists j, cj. split; [|done].
        apply Hr; [|done]. intros ->. cbn [ds_calls] in Ej. rewrite Hi in Ej. injection Ej as ->. congruence.
      + intros j cj Ej Pj. destruct (Hl _ _ Ej) as [[-> ->]|[Hne Ej']]; [done|]. by apply (di_marked c _ H j cj).
      + intros j cj Ej Pj. destruct (Hl _ _ Ej) as [[-> ->]|[Hne Ej']]; [done|]. by apply (di_app c _ H j cj).
      + intros p m Em. destruct (di_mem c _ H _ m Em) as (H1 & H2 & H3 & H4). split; [exact H1|]. split; [exact H2|]. split; [exact H3|].
        rewrite H4. cbn [ds_da ds_calls]. rewrite Hhold; [done|by_pc Epc].
      + intros j cj jd p Ej Pj. destruct (Hl _ _ Ej) as [[-> ->]|[_ Ej']]; [done|]. by apply (di_at c _ H j cj jd p).
      + intros p m jd x Em. rewrite (di_stored c _ H _ m jd x Em). cbn [ds_calls]. rewrite Hret; [done|by_pc Epc|done].
      + intros j cj jd p r Ej Pj. destruct (Hl _ _ Ej) as [[-> ->]|[_ Ej']]; [done|]. by apply (di_ret c _ H j cj jd p r).
    - (* IHasId *)
      apply Val_inj in E. injection E as <- <-.
      split; cbn [ds_da ds_calls].
      + rewrite Hnid; [done|by_pc Epc].
      + intros j cj jd Ej Pj. destruct (Hid ltac:(by_pc Epc) _ _ _ Ej Pj) as (c0 & E0 & P0). by apply (di_id c _ H j c0 jd).
      + intros j k cj ck jd Ej Ek Pj Pk. destruct (Hid ltac:(by_pc Epc) _ _ _ Ej Pj) as (c0 & E0 & P0).
        destruct (Hid ltac:(by_pc Epc) _ _ _ Ek Pk) as (c1 & E1 & P1). by apply (di_uniq c _ H j k c0 c1 jd).
      + done.
      + intros j cj Ej Pj. destruct (Hho ltac:(by_pc Epc) _ _ Ej Pj) as (c0 & E0 & P0). by apply (di_lock c _ H j c0).
      + intros El. apply Hhold; [by_pc Epc|]. by apply (di_held c _ H).
      + intros j k cj ck Ej Ek Pj Pk. destruct (Hho ltac:(by_pc Epc) _ _ Ej Pj) as (c0 & E0 & P0).
        destruct (Hho ltac:(by_pc Epc) _ _ Ek Pk) as (c1 & E1 & P1). by apply (di_one c _ H j k c0 c1).
      + destruct (di_ro c _ H) as [?|[? (j & cj & Ej & Pj)]]; [by left|]. right. split; [done|]. exists j, cj. split; [|done].
        apply Hr; [|done]. intros ->. cbn [ds_calls] in Ej. rewrite Hi in Ej. injection Ej as ->. congruence.
      + intros j cj Ej Pj. destruct (Hl _ _ Ej) as [[-> ->]|[Hne Ej']]; [done|]. by apply (di_marked c _ H j cj).
      + intros j cj Ej Pj. destruct (Hl _ _ Ej) as [[-> ->]|[Hne Ej']]; [done|]. by apply (di_app c _ H j cj).
      + intros p m Em. destruct (di_mem c _ H _ m Em) as (H1 & H2 & H3 & H4). split; [exact H1|]. split; [exact H2|]. split; [exact H3|].
        rewrite H4. cbn [ds_da ds_calls]. rewrite Hhold; [done|by_pc Epc].
      + intros j cj jd p Ej Pj. destruct (Hl _ _ Ej) as [[-> ->]|[_ Ej']]; [cbn [cl' ic_pc] in Pj; by injection Pj as _ <-|]. by apply (di_at c _ H j cj jd p).
      + intros p m jd x Em. rewrite (di_stored c _ H _ m jd x Em). cbn [ds_calls]. rewrite Hret; [done|by_pc Epc|done].
      + intros j cj jd p r Ej Pj. destruct (Hl _ _ Ej) as [[-> ->]|[_ Ej']]; [done|]. by apply (di_ret c _ H j cj jd p r).
    - (* IAt *)
      destruct (da_mem da !! p) as [mi|] eqn:Emi; [|done]. cbn [or_pan mbind out_bind] in E.
      destruct (di_mem c _ H p mi Emi) as (W1 & W2 & W3 & W4).
      pose proof (minsert_spec (dc_fn c) (da_del da) fuel mi (ic_vec cl) (dc_list c) (dc_thr c) id (dist_total_at mi W2) W1) as Hsp.
      assert (Hpr : p <= da_rw da) by (by apply (di_at c _ H i cl id p Hi)).
      assert (Hpl : p < length (da_mem da)) by lia.
      destruct (minsert (dc_fn c) (da_del da) fuel mi (ic_vec cl) (dc_list c) (dc_thr c) id) as [mi'|e|?]; [| |done];
        apply Val_inj in E; injection E as <- <-.
      + (* stored *)
        destruct Hsp as (S1 & S2 & S3 & S4 & S5 & S6 & S7 & S8 & S9).
        assert (Hrw_p : p = da_rw da).
        { destruct (decide (p = da_rw da)); [done|]. exfalso. cbn [ds_da ds_calls] in W4.
          assert (mi_ro mi = true) by (apply W4; left; lia). congruence. }
        split; cbn [ds_da ds_calls da_cur da_mem da_rw da_lock da_ro].
        * rewrite Hnid; [done|by_pc Epc].
        * intros j cj jd Ej Pj. destruct (Hid ltac:(by_pc Epc) _ _ _ Ej Pj) as (c0 & E0 & P0). by apply (di_id c _ H j c0 jd).
        * intros j k cj ck jd Ej Ek Pj Pk. destruct (Hid ltac:(by_pc Epc) _ _ _ Ej Pj) as (c0 & E0 & P0).
          destruct (Hid ltac:(by_pc Epc) _ _ _ Ek Pk) as (c1 & E1 & P1). by apply (di_uniq c _ H j k c0 c1 jd).
        * by rewrite insert_length.
        * intros j cj Ej Pj. destruct (Hho ltac:(by_pc Epc) _ _ Ej Pj) as (c0 & E0 & P0). by apply (di_lock c _ H j c0).
        * intros El. apply Hhold; [by_pc Epc|]. by apply (di_held c _ H).
        * intros j k cj ck Ej Ek Pj Pk. destruct (Hho ltac:(by_pc Epc) _ _ Ej Pj) as (c0 & E0 & P0).
          destruct (Hho ltac:(by_pc Epc) _ _ Ek Pk) as (c1 & E1 & P1). by apply (di_one c _ H j k c0 c1).
        * destruct (di_ro c _ H) as [?|[? (j & cj & Ej & Pj)]]; [by left|]. right. split; [done|]. exists j, cj. split; [|done].
          apply Hr; [|done]. intros ->. cbn [ds_calls] in Ej. rewrite Hi in Ej. injection Ej as ->. congruence.
        * intros j cj Ej Pj. destruct (Hl _ _ Ej) as [[-> ->]|[Hne Ej']]; [done|]. by apply (di_marked c _ H j cj).
        * intros j cj Ej Pj. destruct (Hl _ _ Ej) as [[-> ->]|[Hne Ej']]; [done|]. by apply (di_app c _ H j cj).
        * intros p' m [(<- & <- & _)|[Hp' Em]]%list_lookup_insert_Some.
          -- split; [exact S3|]. split; [congruence|]. split; [congruence|]. rewrite S8, Hhold by (by_pc Epc). cbn [ds_da ds_calls] in W4. rewrite <- W4. by rewrite S1.
          -- destruct (di_mem c _ H _ m Em) as (H1 & H2 & H3 & H4). split; [exact H1|]. split; [exact H2|]. split; [exact H3|].
             rewrite H4. cbn [ds_da ds_calls]. rewrite Hhold; [done|by_pc Epc].
        * intros j cj jd p' Ej Pj. destruct (Hl _ _ Ej) as [[-> ->]|[_ Ej']]; [done|]. by apply (di_at c _ H j cj jd p').
        * intros p' m jd x Em. 
          assert (Hst : forall m0, da_mem da !! p' = Some m0 ->
            ((exists (j : nat) (cj : icall), <[i:=cl']> calls !! j = Some cj /\ ic_pc cj = IRet jd p' (Val tt) /\ x = (jd, 0%N, ic_vec cj)) <->
             (p' = p /\ jd = id /\ x = (id, 0%N, ic_vec cl)) \/ skel (mi_graph m0) !! jd = Some x)).
          { intros m0 Em0. rewrite (di_stored c _ H p' m0 jd x Em0). cbn [ds_calls]. split.
            - intros (j & cj & Ej & Pj & Xj). destruct (Hl _ _ Ej) as [[-> ->]|[_ Ej']].
              + left. cbn [cl' ic_pc ic_vec] in Pj, Xj. injection Pj as <- <-. done.
              + right. by exists j, cj.
            - intros [(-> & -> & ->)|(j & cj & Ej & Pj & Xj)]; [by exists i, cl'|]. exists j, cj. split; [|done].
              apply Hr; [|done]. intros ->. rewrite Hi in Ej. injection Ej as ->. congruence. }
          assert (Hfresh : skel (mi_graph mi) !! id = None).
          { destruct (skel (mi_graph mi) !! id) as [y|] eqn:Ey; [|done]. apply (di_stored c _ H p mi id y Emi) in Ey as (j & cj & Ej & Pj & _).
            assert (j = i) as ->; [|cbn [ds_calls] in Ej; rewrite Hi in Ej; injection Ej as ->; congruence].
            apply (di_uniq c _ H j i cj cl id); [done|done|by rewrite Pj|by_pc Epc]. }
          apply list_lookup_insert_Some in Em as [(<- & <- & _)|[Hp' Em]].
          -- rewrite (Hst mi Emi), S4, lookup_insert_Some. split.
             ++ intros [[<- <-]|[_ Hx]]; [by left|by right].
             ++ intros [(_ & -> & ->)|Hx]; [by left|]. right. split; [|done]. intros <-. congruence.
          -- rewrite (Hst m Em). split; [by right|]. intros [(-> & _)|Hx]; done.
        * intros j cj jd p' r Ej Pj. destruct (Hl _ _ Ej) as [[-> ->]|[_ Ej']].
          -- cbn [cl' ic_pc ic_vec] in *. injection Pj as <- <- <-. split; [done|]. left. split; [done|congruence].
          -- destruct (di_ret c _ H j cj jd p' r Ej' Pj) as [Hp [?|[?|[Hre (m & Em & Rm)]]]]; cbn [ds_da] in *; (split; [lia|]); [by left|by right; left|right; right].
             split; [done|]. exists m. split; [|done]. rewrite list_lookup_insert_ne; [done|]. intros ->. congruence.
      + (* refused *)
        split; cbn [ds_da ds_calls].
        * rewrite Hnid; [done|by_pc Epc].
        * intros j cj jd Ej Pj. destruct (Hid ltac:(by_pc Epc) _ _ _ Ej Pj) as (c0 & E0 & P0). by apply (di_id c _ H j c0 jd).
        * intros j k cj ck jd Ej Ek Pj Pk. destruct (Hid ltac:(by_pc Epc) _ _ _ Ej Pj) as (c0 & E0 & P0).
          destruct (Hid ltac:(by_pc Epc) _ _ _ Ek Pk) as (c1 & E1 & P1). by apply (di_uniq c _ H j k c0 c1 jd).
        * done.
        * intros j cj Ej Pj. destruct (Hho ltac:(by_pc Epc) _ _ Ej Pj) as (c0 & E0 & P0). by apply (di_lock c _ H j c0).
        * intros El. apply Hhold; [by_pc Epc|]. by apply (di_held c _ H).
        * intros j k cj ck Ej Ek Pj Pk. destruct (Hho ltac:(by_pc Epc) _ _ Ej Pj) as (c0 & E0 & P0).
          destruct (Hho ltac:(by_pc Epc) _ _ Ek Pk) as (c1 & E1 & P1). by apply (di_one c _ H j k c0 c1).
        * destruct (di_ro c _ H) as [?|[? (j & cj & Ej & Pj)]]; [by left|]. right. split; [done|]. exists j, cj. split; [|done].
          apply Hr; [|done]. intros ->. cbn [ds_calls] in Ej. rewrite Hi in Ej. injection Ej as ->. congruence.
        * intros j cj Ej Pj. destruct (Hl _ _ Ej) as [[-> ->]|[Hne Ej']]; [done|]. by apply (di_marked c _ H j cj).
        * intros j cj Ej Pj. destruct (Hl _ _ Ej) as [[-> ->]|[Hne Ej']]; [done|]. by apply (di_app c _ H j cj).
        * intros p' m Em. destruct (di_mem c _ H _ m Em) as (H1 & H2 & H3 & H4). split; [exact H1|]. split; [exact H2|]. split; [exact H3|].
          rewrite H4. cbn [ds_da ds_calls]. rewrite Hhold; [done|by_pc Epc].
        * intros j cj jd p' Ej Pj. destruct (Hl _ _ Ej) as [[-> ->]|[_ Ej']]; [done|]. by apply (di_at c _ H j cj jd p').
        * intros p' m jd x Em. rewrite (di_stored c _ H _ m jd x Em). cbn [ds_calls]. rewrite Hret; [done|by_pc Epc|done].
        * intros j cj jd p' r Ej Pj. destruct (Hl _ _ Ej) as [[-> ->]|[_ Ej']].
          -- cbn [cl' ic_pc ic_vec] in *. injection Pj as <- <- <-. split; [done|]. right.
             destruct Hsp as [[-> Hs]|(-> & _ & Hs)]; [right; split; [done|]; by exists mi|left; split; [done|congruence]].
          -- by apply (di_ret c _ H j cj jd p' r).
    - done.
  Qed.

  Lemma dstep_inv s e s' :
    DInv c s -> (N.of_nat (length (ds_calls s)) < 2 ^ 64 - 1)%N -> dstep c fuel s e = Val s' -> DInv c s'.
  Proof using Ht.
    intros H Hlen E. destruct e as [v obj|i|ok|obj]; cbn [dstep] in E.
    - apply Val_inj in E as <-. by apply call_inv.
    - destruct (ds_calls s !! i) as [cl|] eqn:Ei; [|by apply Val_inj in E as <-].
      destruct (istep c fuel (ds_da s) (ic_vec cl) (ic_pc cl)) as [[[da' pc']|]|?|?] eqn:Es; [| |done..]; cbn [mbind out_bind] in E; apply Val_inj in E as <-; [|done].
      by apply step_inv.
    - destruct (snap_step (ds_da s) ok) as [da'|?|?] eqn:Es; [|done..]. cbn [mbind out_bind] in E. apply Val_inj in E as <-. by eapply snap_inv.
    - apply Val_inj in E as <-. by apply delete_inv.
  Qed.

  Lemma dstep_len s e s' : dstep c fuel s e = Val s' ->
    length (ds_calls s') = length (ds_calls s) + (match e with EvCall _ _ => 1 | _ => 0 end).
  Proof using.
    intros E. destruct e as [v obj|i|ok|obj]; cbn [dstep] in E.
    - apply Val_inj in E as <-. cbn [ds_calls]. by rewrite app_length.
    - destruct (ds_calls s !! i) as [cl|] eqn:Ei; [|apply Val_inj in E as <-; lia].
      destruct (istep c fuel (ds_da s) (ic_vec cl) (ic_pc cl)) as [[[da' pc']|]|?|?] eqn:Es; [| |done..]; cbn [mbind out_bind] in E; apply Val_inj in E as <-; cbn [ds_calls]; rewrite ?insert_length; lia.
    - destruct (snap_step (ds_da s) ok) as [da'|?|?] eqn:Es; [|done..]. cbn [mbind out_bind] in E. apply Val_inj in E as <-. cbn. lia.
    - apply Val_inj in E as <-. cbn. lia.
  Qed.
End step.

Fixpoint ncalls (evs : list dev) : nat :=
  match evs with [] => 0 | EvCall _ _ :: evs' => S (ncalls evs') | _ :: evs' => ncalls evs' end.

Lemma drun_inv c fuel evs : dist_total (dc_fn c) (dc_dim c) -> forall s s', DInv c s ->
  (N.of_nat (length (ds_calls s) + ncalls evs) < 2 ^ 64 - 1)%N -> drun c fuel s evs = Val s' -> DInv c s'.
Proof.
  intros Ht. induction evs as [|e evs IH]; intros s s' H Hlen E; cbn [drun] in E; [by apply Val_inj in E as <-|].
  destruct (dstep c fuel s e) as [s1|?|?] eqn:E1; [|done..]. cbn [mbind out_bind] in E.
  apply (IH s1); [|pose proof (dstep_len c fuel s e s1 E1); destruct e; cbn [ncalls] in *; lia|done].
  apply (dstep_inv c fuel Ht s e); [done|destruct e; cbn [ncalls] in *; lia|done].
Qed.
Lemma drun_app c fuel evs1 evs2 s : drun c fuel s (evs1 ++ evs2) = (s' ← drun c fuel s evs1; drun c fuel s' evs2).
Proof.
  revert s. induction evs1 as [|e evs1 IH]; intros s; cbn [app drun]; [done|].
  destruct (dstep c fuel s e) as [s1|?|?]; [|done..]. cbn [mbind out_bind]. apply IH.
Qed.

(** ** Inserts and deletes never panic *)
Definition no_snap (e : dev) : Prop := match e with EvSnap _ => False | _ => True end.

Lemma dstep_total c s e : dist_total (dc_fn c) (dc_dim c) -> DInv c s -> no_snap e ->
  exists F s', forall fuel, F <= fuel -> dstep c fuel s e = Val s'.
Proof.
  intros Ht H He. destruct e as [v obj|i|ok|obj]; cbn [dstep]; [by exists 0; eexists| |done|by exists 0; eexists].
  destruct (ds_calls s !! i) as [cl|] eqn:Hi; [|by exists 0; eexists].
  destruct (ic_pc cl) as [| | | |id|id p|id p r] eqn:Epc; cbn [istep]; try (exists 0; by eexists).
  - destruct (da_lock (ds_da s)); [by exists 0; eexists|].
    destruct (lookup_lt_is_Some_2 (da_mem (ds_da s)) (da_rw (ds_da s))) as [mi Emi]; [rewrite (di_rw c s H); lia|].
    rewrite Emi. cbn [or_pan mbind out_bind]. destruct (_ =? _)%N; exists 0; by eexists.
  - pose proof (di_at c s H i cl id p Hi Epc) as Hp.
    destruct (lookup_lt_is_Some_2 (da_mem (ds_da s)) p) as [mi Emi]; [rewrite (di_rw c s H); lia|].
    destruct (di_mem c s H p mi Emi) as (W1 & W2 & _).
    set (W := 1 + work ∅ (<[id := DVertex id 0 [] (ic_vec cl)]> (mi_graph mi))).
    pose proof (fun f => minsert_spec (dc_fn c) (da_del (ds_da s)) f mi (ic_vec cl) (dc_list c) (dc_thr c) id (dist_total_at c Ht mi W2) W1) as Hsp.
    pose proof (Hsp W) as HW.
    destruct (minsert (dc_fn c) (da_del (ds_da s)) W mi (ic_vec cl) (dc_list c) (dc_thr c) id) as [mi'|e|?] eqn:E; [| |unfold W in HW; lia].
    + exists W. eexists. intros fuel Hf. rewrite Emi. cbn [or_pan mbind out_bind].
      rewrite (minsert_np (dc_fn c) (da_del (ds_da s)) W fuel mi (ic_vec cl) (dc_list c) (dc_thr c) id (Val mi') Hf ltac:(done) E). done.
    + exists W. eexists. intros fuel Hf. rewrite Emi. cbn [or_pan mbind out_bind].
      rewrite (minsert_np (dc_fn c) (da_del (ds_da s)) W fuel mi (ic_vec cl) (dc_list c) (dc_thr c) id (Err e) Hf ltac:(done) E). done.
Qed.

Lemma drun_total c evs : dist_total (dc_fn c) (dc_dim c) -> Forall no_snap evs -> forall s, DInv c s ->
  (N.of_nat (length (ds_calls s) + ncalls evs) < 2 ^ 64 - 1)%N ->
  exists F s', (forall fuel, F <= fuel -> drun c fuel s evs = Val s') /\ DInv c s'.
Proof.
  intros Ht. induction evs as [|e evs IH]; intros Hns s H Hlen; [by exists 0, s|].
  inversion_clear Hns as [|?? He Hns'].
  destruct (dstep_total c s e Ht H He) as (F1 & s1 & E1).
  destruct (IH Hns' s1) as (F2 & s2 & E2 & H2).
  - apply (dstep_inv c F1 Ht s e); [done|destruct e; cbn [ncalls] in *; lia|by apply E1].
  - pose proof (dstep_len c F1 s e s1 (E1 F1 ltac:(lia))). destruct e; cbn [ncalls] in *; lia.
  - exists (Nat.max F1 F2), s2. split; [|done]. intros fuel Hf. cbn [drun]. rewrite E1 by lia. cbn [mbind out_bind]. apply E2. lia.
Qed.

(** ** Every call can be brought to its end *)
Definition left_of (pc : ipc) : nat :=
  match pc with IStart => 6 | IMarked => 5 | IAppended => 4 | IFree => 3 | IHasId _ => 2 | IAt _ _ => 1 | IRet _ _ _ => 0 end.
Definition todo (s : dsys) : nat := sum_list_with (fun cl => left_of (ic_pc cl)) (ds_calls s).
Definition returned (cl : icall) : Prop := exists id p r, ic_pc cl = IRet id p r.

Lemma sum_set {A} (f : A -> nat) l i x x' : l !! i = Some x ->
  sum_list_with f (<[i := x']> l) + f x = sum_list_with f l + f x'.
Proof.
  intros H. apply lookup_lt_Some in H as Hi. rewrite insert_take_drop by done.
  rewrite <- (take_drop_middle l i x H) at 3. rewrite !sum_list_with_app. cbn [sum_list_with]. lia.
Qed.

Lemma istep_left c fuel da v pc da' pc' : istep c fuel da v pc = Val (Some (da', pc')) -> left_of pc' < left_of pc.
Proof.
  intros E. destruct pc as [| | | |id|id p|id p r]; cbn [istep] in E.
  - destruct (da_lock da); [done|]. destruct (da_mem da !! da_rw da); [|done]. cbn [or_pan mbind out_bind] in E.
    destruct (_ =? _)%N; apply Val_inj in E; injection E as <- <-; cbn; lia.
  - apply Val_inj in E; injection E as <- <-; cbn; lia.
  - apply Val_inj in E; injection E as <- <-; cbn; lia.
  - apply Val_inj in E; injection E as <- <-; cbn; lia.
  - apply Val_inj in E; injection E as <- <-; cbn; lia.
  - destruct (da_mem da !! p); [|done]. cbn [or_pan mbind out_bind] in E.
    destruct (minsert _ _ _ _ _ _ _ _); [| |done]; apply Val_inj in E; injection E as <- <-; cbn; lia.
  - done.
Qed.

(** some call can move *)
Lemma can_move c s : dist_total (dc_fn c) (dc_dim c) -> DInv c s ->
  Forall returned (ds_calls s) \/
  exists i F s', (forall fuel, F <= fuel -> dstep c fuel s (EvStep i) = Val s') /\ todo s' < todo s /\
    length (ds_calls s') = length (ds_calls s).
Proof.
  intros Ht H.
  assert (Hmove : forall i cl, ds_calls s !! i = Some cl -> ~ returned cl -> (ic_pc cl = IStart -> da_lock (ds_da s) = false) ->
    exists F s', (forall fuel, F <= fuel -> dstep c fuel s (EvStep i) = Val s') /\ todo s' < todo s /\
      length (ds_calls s') = length (ds_calls s)).
  { intros i cl Hi Hn Hlk. destruct (dstep_total c s (EvStep i) Ht H I) as (F & s' & E). exists F, s'. split; [done|].
    specialize (E F ltac:(lia)). split.
    2:{ pose proof (dstep_len c F s (EvStep i) s' E). cbn in *. lia. }
    cbn [dstep] in E. rewrite Hi in E.
    destruct (istep c F (ds_da s) (ic_vec cl) (ic_pc cl)) as [[[da' pc']|]|?|?] eqn:Es; [| |done..]; cbn [mbind out_bind] in E; apply Val_inj in E as <-.
    - apply istep_left in Es. unfold todo. cbn [ds_calls].
      pose proof (sum_set (fun cl => left_of (ic_pc cl)) (ds_calls s) i cl (ICall (ic_vec cl) (ic_obj cl) pc') Hi). cbn [ic_pc] in *. lia.
    - exfalso. destruct (ic_pc cl) as [| | | |id|id p|id p r] eqn:Epc; cbn [istep] in Es; try done.
      + rewrite Hlk in Es by done. destruct (da_mem (ds_da s) !! da_rw (ds_da s)); [|done]. cbn [or_pan mbind out_bind] in Es. by destruct (_ =? _)%N.
      + destruct (da_mem (ds_da s) !! p); [|done]. cbn [or_pan mbind out_bind] in Es. by destruct (minsert _ _ _ _ _ _ _ _).
      + apply Hn. by exists id, p, r. }
  destruct (decide (Forall (fun cl => left_of (ic_pc cl) = 0) (ds_calls s))) as [Ha|Hna].
  { left. eapply Forall_impl; [exact Ha|]. intros cl Hcl. cbv beta in Hcl. unfold returned. destruct (ic_pc cl) as [| | | | | |id p r] eqn:E; try done. by exists id, p, r. }
  right. apply not_Forall_Exists in Hna; [|apply _]. apply Exists_exists in Hna as (cl & Hcl & Hn).
  apply elem_of_list_lookup in Hcl as [i Hi].
  assert (Hnr : ~ returned cl) by (intros (? & ? & ? & E); apply Hn; by rewrite E).
  destruct (decide (left_of (ic_pc cl) = 6 /\ da_lock (ds_da s) = true)) as [[E1 E2]|Hd].
  - destruct (di_held c s H E2) as (j & cj & Ej & Pj). exists j. apply (Hmove j cj Ej).
    + intros (? & ? & ? & E). by rewrite E in Pj.
    + intros E. by rewrite E in Pj.
  - exists i. apply (Hmove i cl Hi Hnr). intros E. destruct (da_lock (ds_da s)); [|done]. exfalso. apply Hd. by rewrite E.
Qed.

Lemma all_return c s : dist_total (dc_fn c) (dc_dim c) -> DInv c s -> (N.of_nat (length (ds_calls s)) < 2 ^ 64 - 1)%N ->
  exists is F s', (forall fuel, F <= fuel -> drun c fuel s (EvStep <$> is) = Val s') /\ Forall returned (ds_calls s') /\
    length is <= todo s.
Proof.
  intros Ht. remember (todo s) as n eqn:En. revert s En. induction (lt_wf n) as [n _ IH]. intros s -> H Hlen.
  destruct (can_move c s Ht H) as [Ha|(i & F & s1 & E1 & Hlt & Hl1)].
  { exists [], 0, s. split_and!; [done|done|cbn; lia]. }
  destruct (IH (todo s1) Hlt s1) as (is & F2 & s2 & E2 & Hr & Hl2); [done| |by rewrite Hl1|].
  { apply (dstep_inv c F Ht s (EvStep i)); [done|done|]. by apply E1. }
  exists (i :: is), (Nat.max F F2), s2. split; [|split; [done|cbn [length]; lia]].
  intros fuel Hf. cbn [fmap list_fmap drun]. rewrite E1 by lia. cbn [mbind out_bind]. apply E2. lia.
Qed.

(** ** One call at a time *)
Definition rotated (c : dcfg) (da : dann) (mi : mindex) : dann :=
  DAnn (<[da_rw da := mi_close mi]> (da_mem da) ++ [new_mindex (da_cur da) (dc_deg c) (dc_dim c)]) (length (da_mem da))
    (da_ro da ++ [da_rw da]) (da_del da) (da_cur da) false (S (da_pend da)) (da_files da).
Definition checked (c : dcfg) (da : dann) (mi : mindex) : dann :=
  if (mi_count mi =? dc_limit c)%N then rotated c da mi else da.
Definition with_cur (x : N) (da : dann) : dann :=
  DAnn (da_mem da) (da_rw da) (da_ro da) (da_del da) x (da_lock da) (da_pend da) (da_files da).
Definition with_mem (ms : list mindex) (da : dann) : dann :=
  DAnn ms (da_rw da) (da_ro da) (da_del da) (da_cur da) (da_lock da) (da_pend da) (da_files da).

Lemma step_last c fuel da calls v obj pc :
  dstep c fuel (DSys da (calls ++ [ICall v obj pc])) (EvStep (length calls)) =
  (r ← istep c fuel da v pc;
   match r with
   | None => Val (DSys da (calls ++ [ICall v obj pc]))
   | Some (da', pc') => Val (DSys da' (calls ++ [ICall v obj pc']))
   end).
Proof.
  cbn [dstep ds_calls ds_da]. rewrite lookup_app_r, Nat.sub_diag by lia. cbn [lookup list_lookup ic_vec ic_pc ic_obj].
  destruct (istep c fuel da v pc) as [[[da' pc']|]|?|?]; [|done..]. cbn [mbind out_bind].
  rewrite insert_app_r_alt, Nat.sub_diag by lia. done.
Qed.

Lemma one_insert_run c fuel da calls v obj mi : da_lock da = false -> da_mem da !! da_rw da = Some mi ->
  (1 <= da_cur da < 2 ^ 64 - 1)%N ->
  let da2 := with_cur (da_cur da + 1) (checked c da mi) in
  drun c fuel (DSys da calls) (one_insert (length calls) v obj) =
    (mi1 ← or_pan PNil (da_mem da2 !! da_rw da2);
     match minsert (dc_fn c) (da_del da) fuel mi1 v (dc_list c) (dc_thr c) (da_cur da) with
     | Val mi' => Val (DSys (with_mem (<[da_rw da2 := mi']> (da_mem da2)) da2)
                         (calls ++ [ICall v obj (IRet (da_cur da) (da_rw da2) (Val tt))]))
     | Err e => Val (DSys da2 (calls ++ [ICall v obj (IRet (da_cur da) (da_rw da2) (Err e))]))
     | Pan x => Pan x
     end).
Proof.
  intros Hl Hmi Hcur da2. unfold one_insert. cbn [drun]. cbn [dstep ds_da ds_calls mbind out_bind replicate].
  assert (Hc1 : u64 (da_cur da + 1) = (da_cur da + 1)%N) by (apply N.mod_small; lia).
  assert (Hc2 : u64 (da_cur da + 1 + 2 ^ 64 - 1) = da_cur da).
  { unfold u64. replace (da_cur da + 1 + 2 ^ 64 - 1)%N with (da_cur da + 1 * 2 ^ 64)%N by lia. rewrite N.mod_add by lia. apply N.mod_small. lia. }
  (* from IFree on *)
  assert (Hrest : forall k da1, da_cur da1 = da_cur da -> da_del da1 = da_del da -> da1 = checked c da mi ->
    drun c fuel (DSys da1 (calls ++ [ICall v obj IFree])) (replicate (3 + k) (EvStep (length calls))) =
    (mi1 ← or_pan PNil (da_mem da2 !! da_rw da2);
     match minsert (dc_fn c) (da_del da) fuel mi1 v (dc_list c) (dc_thr c) (da_cur da) with
     | Val mi' => Val (DSys (with_mem (<[da_rw da2 := mi']> (da_mem da2)) da2)
                         (calls ++ [ICall v obj (IRet (da_cur da) (da_rw da2) (Val tt))]))
     | Err e => Val (DSys da2 (calls ++ [ICall v obj (IRet (da_cur da) (da_rw da2) (Err e))]))
     | Pan x => Pan x
     end)).
  { intros k da1 E1 E2 E3.
    assert (Hid : forall k da3 cl, (exists id p r, ic_pc cl = IRet id p r) ->
      drun c fuel (DSys da3 (calls ++ [cl])) (replicate k (EvStep (length calls))) = Val (DSys da3 (calls ++ [cl]))).
    { clear. intros k da3 [v o pc] (id & p & r & E). cbn [ic_pc] in E. subst pc. induction k as [|k IH]; [done|].
      cbn [replicate drun]. rewrite step_last. cbn [istep mbind out_bind]. exact IH. }
    cbn [replicate drun plus]. rewrite step_last. cbn [istep mbind out_bind]. rewrite E1, Hc1, Hc2.
    rewrite step_last. cbn [istep mbind out_bind da_rw]. rewrite step_last. cbn [istep mbind out_bind da_rw da_mem da_del].
    rewrite E2. subst da1. unfold da2. cbn [with_cur da_mem da_rw].
    destruct (da_mem (checked c da mi) !! da_rw (checked c da mi)) as [mi1|]; [|done]. cbn [or_pan mbind out_bind].
    destruct (minsert _ _ _ _ _ _ _ _); [| |done]; cbn [mbind out_bind]; rewrite Hid; [|by eexists _, _, _| |by eexists _, _, _].
    - cbn [with_mem with_cur da_mem da_rw da_ro da_del da_cur da_lock da_pend da_files]. by rewrite <- E2.
    - cbn [with_mem with_cur da_mem da_rw da_ro da_del da_cur da_lock da_pend da_files]. by rewrite <- E2. }
  change (EvStep (length calls) :: _) with (replicate 6 (EvStep (length calls))).
  destruct (mi_count mi =? dc_limit c)%N eqn:Ec.
  - change 6 with (S (S (S (3 + 0)))). rewrite <- (Hrest 0 (checked c da mi)); [|unfold checked; by rewrite Ec..|done].
    cbn [replicate drun]. rewrite step_last. cbn [istep]. rewrite Hl, Hmi. cbn [or_pan mbind out_bind]. rewrite Ec. cbn [mbind out_bind].
    rewrite step_last. cbn [istep mbind out_bind]. rewrite step_last. cbn [istep mbind out_bind da_mem da_rw da_ro da_del da_cur da_lock da_pend da_files].
    unfold checked. rewrite Ec. unfold rotated. rewrite insert_length. done.
  - change 6 with (S (3 + 2)). rewrite <- (Hrest 2 (checked c da mi)); [|unfold checked; by rewrite Ec..|done].
    cbn [replicate drun]. rewrite step_last. cbn [istep]. rewrite Hl, Hmi. cbn [or_pan mbind out_bind]. rewrite Ec. cbn [mbind out_bind].
    unfold checked. by rewrite Ec.
Qed.

(** A history of complete calls; snapshot goroutines run between them. *)
Inductive sop := SIns (v : fvec) (obj : N) | SDel (obj : N) | SSnap (ok : bool).
Fixpoint seq_evs (n : nat) (ops : list sop) : list dev :=
  match ops with
  | [] => []
  | SIns v obj :: ops' => one_insert n v obj ++ seq_evs (S n) ops'
  | SDel obj :: ops' => EvDelete obj :: seq_evs n ops'
  | SSnap ok :: ops' => EvSnap ok :: seq_evs n ops'
  end.
Definition is_ins (o : sop) : bool := match o with SIns _ _ => true | _ => false end.
Fixpoint nins (ops : list sop) : nat :=
  match ops with [] => 0 | SIns _ _ :: ops' => S (nins ops') | _ :: ops' => nins ops' end.
Lemma ncalls_app evs1 evs2 : ncalls (evs1 ++ evs2) = ncalls evs1 + ncalls evs2.
Proof. induction evs1 as [|[] ? IH]; cbn; lia. Qed.
Lemma ncalls_seq n ops : ncalls (seq_evs n ops) = nins ops.
Proof.
  revert n. induction ops as [|[v obj|obj|ok] ops IH]; intros n; [done| |apply IH|apply IH].
  cbn [seq_evs nins]. rewrite ncalls_app, IH. done.
Qed.

  Lemma one_insert_quiet c fuel s v obj s' : dist_total (dc_fn c) (dc_dim c) -> DInv c s -> da_lock (ds_da s) = false -> (N.of_nat (S (length (ds_calls s))) < 2 ^ 64 - 1)%N ->
    drun c fuel s (one_insert (length (ds_calls s)) v obj) = Val s' ->
    DInv c s' /\ da_lock (ds_da s') = false /\ length (ds_calls s') = S (length (ds_calls s)).
  Proof.
    intros Ht H Hl Hlen E. split.
    { apply (drun_inv c fuel (one_insert (length (ds_calls s)) v obj) Ht s); [done|cbn [one_insert ncalls replicate]; lia|done]. }
    destruct s as [da calls]. cbn [ds_da ds_calls] in *.
    destruct (lookup_lt_is_Some_2 (da_mem da) (da_rw da)) as [mi Emi]; [pose proof (di_rw c _ H); cbn in *; lia|].
    pose proof (di_cur c _ H) as Hcur. pose proof (nids_le calls). cbn [ds_da ds_calls] in Hcur.
    rewrite (one_insert_run c fuel da calls v obj mi Hl Emi) in E by lia. cbv zeta in E.
    destruct (da_mem _ !! da_rw _) as [mi1|] in E; [|done]. cbn [or_pan mbind out_bind] in E.
    destruct (minsert _ _ _ _ _ _ _ _) in E; [| |done]; apply Val_inj in E as <-; cbn [ds_da ds_calls with_mem with_cur da_lock]; rewrite app_length; cbn [length];
      (split; [|lia]); unfold checked; destruct (_ =? _)%N; done.
  Qed.

(** a snapshot changes nothing but the files *)
Lemma snap_same da ok da' : snap_step da ok = Val da' ->
  exists n fs, da' = DAnn (da_mem da) (da_rw da) (da_ro da) (da_del da) (da_cur da) (da_lock da) n fs.
Proof.
  intros E. unfold snap_step in E. destruct (da_pend da) as [|n] eqn:Ep.
  { apply Val_inj in E as <-. exists 0, (da_files da). rewrite <- Ep. by destruct da. }
  destruct (da_mem da !! da_rw da) as [mi|]; [|done]. cbn [or_pan mbind out_bind] in E.
  destruct (write_index mi); [|done..]. cbn [mbind out_bind] in E. apply Val_inj in E as <-. by eexists _, _.
Qed.

(** Every predicate on states kept by a complete insert, a delete and a snapshot
    holds after every such history. *)
Section seqinv.
  Context (c : dcfg) (fuel : nat) (Ht : dist_total (dc_fn c) (dc_dim c)) (okv : fvec -> Prop).
  Context (Q : dsys -> Prop).
  Context (HQdel : forall s obj, Q s -> Q (DSys (da_delete (ds_da s) obj) (ds_calls s))).
  Context (HQsnap : forall s ok da', Q s -> snap_step (ds_da s) ok = Val da' -> Q (DSys da' (ds_calls s))).
  Context (HQins : forall s v obj s', DInv c s -> da_lock (ds_da s) = false -> Q s -> okv v -> 
    (N.of_nat (S (length (ds_calls s))) < 2 ^ 64 - 1)%N ->
    drun c fuel s (one_insert (length (ds_calls s)) v obj) = Val s' -> Q s').

  Lemma seq_run ops : (forall v obj, SIns v obj ∈ ops -> okv v) -> forall s s', DInv c s -> da_lock (ds_da s) = false -> Q s ->
    (N.of_nat (length (ds_calls s) + nins ops) < 2 ^ 64 - 1)%N ->
    drun c fuel s (seq_evs (length (ds_calls s)) ops) = Val s' ->
    DInv c s' /\ da_lock (ds_da s') = false /\ Q s'.
  Proof using Ht HQdel HQsnap HQins.
    induction ops as [|o ops IH]; intros Hok s s' H Hl HQ Hlen E.
    { cbn [seq_evs drun] in E. by apply Val_inj in E as <-. }
    assert (forall v obj, SIns v obj ∈ ops -> okv v) as Hok' by (intros v obj Hv; apply (Hok v obj); by right).
    destruct o as [v obj|obj|ok]; cbn [seq_evs nins] in *.
    - rewrite drun_app in E. destruct (drun c fuel s (one_insert (length (ds_calls s)) v obj)) as [s1|?|?] eqn:E1; [|done..].
      cbn [mbind out_bind] in E. destruct (one_insert_quiet c fuel s v obj s1 Ht H Hl ltac:(lia) E1) as (H1 & Hl1 & Hn1).
      rewrite <- Hn1 in E. apply (IH Hok' s1); [done|done| |lia|done].
      apply (HQins s v obj s1); try done; [|lia]. apply (Hok v obj). by left.
    - cbn [drun dstep mbind out_bind] in E. apply (IH Hok' (DSys (da_delete (ds_da s) obj) (ds_calls s))); [by apply delete_inv|done|by apply HQdel|done|done].
    - cbn [drun dstep] in E. destruct (snap_step (ds_da s) ok) as [da'|?|?] eqn:Es; [|done..]. cbn [mbind out_bind] in E.
      assert (DInv c (DSys da' (ds_calls s))) as H1 by (by eapply snap_inv).
      apply (IH Hok' (DSys da' (ds_calls s))); [done| | |done|done].
      + by destruct (snap_same _ _ _ Es) as (n & fs & ->).
      + by eapply HQsnap.
  Qed.
End seqinv.

Lemma drun_mono c fuel fuel' evs : fuel <= fuel' -> forall s s', drun c fuel s evs = Val s' -> drun c fuel' s evs = Val s'.
Proof.
  intros Hle. induction evs as [|e evs IH]; intros s s' E; cbn [drun] in *; [done|].
  destruct (dstep c fuel s e) as [s1|?|?] eqn:E1; [|done..]. cbn [mbind out_bind] in E.
  assert (dstep c fuel' s e = Val s1) as ->; [|cbn [mbind out_bind]; by apply IH]. clear -Hle E1.
  destruct e as [v obj|i|ok|obj]; try exact E1. cbn [dstep] in *. destruct (ds_calls s !! i) as [cl|]; [|done].
  destruct (ic_pc cl) as [| | | |id|id p|id p r]; try exact E1. cbn [istep] in *.
  destruct (da_mem (ds_da s) !! p) as [mi|]; [|done]. cbn [or_pan mbind out_bind] in *.
  destruct (minsert (dc_fn c) (da_del (ds_da s)) fuel mi (ic_vec cl) (dc_list c) (dc_thr c) id) as [mi'|e|?] eqn:E; [| |done].
  - by rewrite (minsert_np _ _ fuel fuel' mi _ _ _ id (Val mi') Hle ltac:(done) E).
  - by rewrite (minsert_np _ _ fuel fuel' mi _ _ _ id (Err e) Hle ltac:(done) E).
Qed.
