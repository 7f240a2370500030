(** Stored vectors and stored objects: which vectors may lack their object, and
    what keeps such a vector's vertex out of search results. *)
From stdpp Require Import relations sorting.
From Verif Require Import GoBase FloatModel HeapModel ProgModel StateModel WalModel HnswModel StoreModel CollModel CallModel
  ProofBase CodecProofs CodecSpec LogProofs WpProofs StepProofs StoreProofs CallProofs HistProofs SimProofs WalProofs StoreView SeqLog IndexHist RestoreProofs
  HeapProofs ParLog ParHist.
Open Scope nat_scope.
Local Arguments id_key _ : simpl never.
Local Arguments le_put _ _ : simpl never.

(** ** Inserting: the object goes first *)
Definition okeys (s s' : st) : Prop := forall k, is_Some (objs s !! k) -> is_Some (objs s' !! k).
Definition vfollow (s s' : st) : Prop :=
  okeys s s' /\ forall k, is_Some (vecs s' !! k) -> is_Some (vecs s !! k) \/ is_Some (objs s' !! k).
Lemma okeys_refl s : okeys s s. Proof. by intros k. Qed.
Lemma okeys_trans a b c : okeys a b -> okeys b c -> okeys a c.
Proof. intros H1 H2 k Hk. by apply H2, H1. Qed.
Lemma vfollow_refl s : vfollow s s. Proof. split; [apply okeys_refl|]. by left. Qed.
Lemma vfollow_trans a b c : vfollow a b -> vfollow b c -> vfollow a c.
Proof.
  intros [H1 H2] [H3 H4]. split; [by eapply okeys_trans|]. intros k Hk.
  destruct (H4 k Hk) as [H|H]; [|by right]. destruct (H2 k H) as [H'|H']; [by left|]. right. by apply H3.
Qed.
Lemma vfollow_same s s' : objs s' = objs s -> vecs s' = vecs s -> vfollow s s'.
Proof. intros E1 E2. split; [intros k; by rewrite E1|]. intros k. rewrite E2. by left. Qed.

Definition oE (_ : unit) : st -> st -> Prop := okeys.
Definition oGU (_ : unit) (s : st) (_ : unit) (s' : st) : Prop := vfollow s s'.
Definition oB (_ : unit) (_ : st) : Prop := True.
Definition oQ {A} (_ : unit) (_ : out A) (_ : st) : Prop := True.
Notation owp p s := (wp oE oGU oB p oQ tt s).

Lemma oE_refl x s : oE x s s. Proof. apply okeys_refl. Qed.
Lemma owp_steps {A} (p : prog st A) s : steps vfollow p -> owp p s.
Proof.
  revert s. induction p as [r|f IH] using prog_ind'; intros s Hp; cbn [wp]; [done|].
  intros s1 He. cbn [steps] in Hp. specialize (Hp s1). destruct (f s1) as [[s2 p']|] eqn:Ef; [|done].
  destruct Hp as [HR Hp]. exists tt. split; [done|]. by eapply IH.
Qed.
Lemma owp_bind {A B} (p : prog st A) (k : A -> prog st B) s : owp p s -> (forall a s', owp (k a) s') -> owp (p ≫= k) s.
Proof.
  intros Hp Hk. apply (wp_bind _ _ _ oE_refl). eapply wp_mono; [|exact Hp]. intros [] r s' _. destruct r; [apply Hk|done..].
Qed.
Lemma owp_act {A} (f : st -> st * out A) s : (forall s, vfollow s (f s).1) -> owp (act f) s.
Proof. intros H. apply owp_steps, steps_act, H. Qed.

Section progs.
  Context (C : cparams).
  Lemma owp_put_object o s : owp (put_object (cp_json C) (cp_maxval C) o) s.
  Proof.
    unfold put_object. apply owp_bind; [done|intros ob s1]. apply owp_bind; [done|intros vb s2].
    apply (wp_bind _ _ _ oE_refl), wp_act. intros s3 He3. unfold bc_put.
    destruct (_ <? _)%N; cbn [fst snd].
    { exists tt. split; [apply vfollow_refl|]. by intros s4 _. }
    destruct (closed s3); cbn [fst snd].
    { exists tt. split; [apply vfollow_refl|]. by intros s4 _. }
    exists tt. split.
    { split; [|by left]. intros k Hk. cbn. destruct (decide (k = id_key (o_id o))) as [->|Hne]; [rewrite lookup_insert; by eexists|].
      by rewrite lookup_insert_ne. }
    intros s4 He4. apply wp_act. intros s5 He5. assert (Hin : is_Some (objs s5 !! id_key (o_id o))).
    { apply He5, He4. cbn. rewrite lookup_insert. by eexists. }
    destruct (_ <? _)%N; [|destruct (closed s5)]; cbn [fst snd]; exists tt; (split; [|by intros s6 _]); [apply vfollow_refl..|].
    split; [by intros k|]. intros k. cbn. destruct (decide (k = id_key (o_id o))) as [->|Hne]; [by right|].
    rewrite lookup_insert_ne by done. by left.
  Qed.
  Lemma owp_insert_one tid level o s : owp (insert_one C tid level o) s.
  Proof.
    unfold insert_one. apply owp_bind; [|intros id s1].
    { apply owp_act. intros s1. destruct (closed s1); by apply vfollow_same. }
    apply owp_bind; [apply owp_put_object|intros u s2]. apply owp_bind; [|intros u2 s3; done].
    apply owp_steps. eapply steps_mono; [|apply insert_keep_store]. intros a b (_&_&_&_&K5&K6&_). by apply vfollow_same.
  Qed.
  Lemma owp_worker tid os : forall s, owp (worker C tid os) s.
  Proof.
    induction os as [|[o l] os IH]; intros s; [done|]. cbn [worker]. apply owp_bind; [apply owp_insert_one|intros o1 s1].
    apply owp_bind; [apply IH|]. done.
  Qed.
  Lemma owp_worker2 n tid : forall s, owp (worker2 C n tid) s.
  Proof.
    assert (Hr : forall s, vfollow s (match chan s with [] => (s, Val None) | o :: os => (set_chan os s, Val (Some o)) end).1).
    { intros s. destruct (chan s); by apply vfollow_same. }
    induction n as [|n IH]; intros s; cbn [worker2]; (apply owp_bind; [by apply owp_act|]); intros [[o l]|] s1; try done;
      (apply owp_bind; [apply owp_insert_one|intros o1 s2]); [done|].
    apply owp_bind; [apply IH|]. done.
  Qed.
  Lemma flush_same io s : vfollow s (wal_flush io s).1.
  Proof.
    unfold wal_flush. destruct (batch s); [apply vfollow_refl|]. destruct (in_order _ _); [|apply vfollow_refl].
    destruct io; by apply vfollow_same.
  Qed.
  Lemma owp_insert tid io level o s : owp (CollModel.insert C tid io level o) s.
  Proof.
    unfold CollModel.insert. apply owp_bind; [apply owp_act; intros s1; apply vfollow_refl|intros u s1].
    apply owp_bind; [done|intros u2 s2]. apply owp_bind; [done|intros [|o' [|? ?]] s3]; try done.
    apply owp_bind; [apply owp_insert_one|intros o1 s4]. apply owp_bind; [|done]. apply owp_act. apply flush_same.
  Qed.

  Lemma owp_reach {A} (ts ts' : list (prog st A)) s s' :
    (forall i p, ts !! i = Some p -> owp p s) -> rtc mstep (s, ts) (s', ts') -> vfollow s s'.
  Proof.
    intros Hw Hr.
    destruct (all_wp_rtc oE oGU oB oE_refl (fun _ => okeys_trans) (fun _ => vfollow s)) with (Q := fun (_ : nat) => @oQ A) (xs := replicate (length ts) tt)
      (m := (s, ts)) (m' := (s', ts')) as (xs & _ & HW & _).
    - intros xs s1 i [] [] s2 HW _ Hg. split; [by eapply vfollow_trans|]. intros j [] _ _. apply Hg.
    - done.
    - cbn [fst snd]. split; [by rewrite replicate_length|]. split; [apply vfollow_refl|]. intros i [] p _ Hp. by eapply Hw.
    - exact HW.
  Qed.
End progs.

(** ** Every stored vector has its object or a delete record *)
Definition gone (log : list bytes) (id : N) : Prop := exists r, enc_delete id = Val r /\ r ∈ log.
Definition covered (log : list bytes) (s : st) : Prop :=
  forall id, (id < 2 ^ 64)%N -> is_Some (vecs s !! id_key id) -> is_Some (objs s !! id_key id) \/ gone log id.
Lemma covered_follow l l' s s' : (forall r, r ∈ l -> r ∈ l') -> vfollow s s' -> covered l s -> covered l' s'.
Proof.
  intros Hl [H1 H2] Hc id Hid Hv. destruct (H2 _ Hv) as [Hv'|Ho]; [|by left].
  destruct (Hc id Hid Hv') as [Ho|(r & He & Hr)]; [left; by apply H1|]. right. exists r. split; [done|]. by apply Hl.
Qed.

(** The call is not an unfinished or failed Delete. *)
Definition ev_safe (e : event) : Prop :=
  match e with
  | EvCall (CDelete _ _) (RUnit r) => r = Val tt
  | EvCrash (CDelete _ _) _ => False
  | _ => True
  end.
Definition no_reopen (e : event) : Prop := match e with EvCall _ _ => True | _ => False end.

Section hist.
  Context (C : cparams).

  Lemma run_follow s c s' r : call_run C s c s' r -> (forall io id, c <> CDelete io id) -> vfollow s s'.
  Proof.
    intros Hr Hnd. inversion Hr as [io level o s1 r1 Hx|io ol r1 Hp Hn|io ol os s1 r1 rs Hp Hb|io ol r1 Hp Hn|io ol os s1 r1 rs Hp Hb|io id f s1 r1 Hlk Hx|ids s1 r1 Hx|o k s1 r1 Hx|s1 r1 Hx|o s1 r1 Hx|s1 r1 Hx]; subst.
    - apply exec_rtc in Hx. eapply owp_reach; [|exact Hx]. intros [|i] p Hi; [|done]. apply (inj Some) in Hi as <-. apply owp_insert.
    - apply vfollow_refl.
    - inversion Hb as [s2 rs2 s3 r3 H2 Hg Hfl|s2 rs2 e H2 Hg]; subst.
      + eapply vfollow_trans; [|pose proof (flush_same io s2) as Hf; rewrite Hfl in Hf; exact Hf].
        eapply owp_reach; [|exact H2]. intros i p Hi. apply list_lookup_fmap_inv in Hi as (j & -> & _). apply owp_worker.
      + eapply owp_reach; [|exact H2]. intros i p Hi. apply list_lookup_fmap_inv in Hi as (j & -> & _). apply owp_worker.
    - apply vfollow_refl.
    - eapply (vfollow_trans _ (set_chan (zip os ol.*2) s)); [by apply vfollow_same|].
      eapply (vfollow_trans _ s1); [|by apply vfollow_same]. inversion Hb as [s2 rs2 s3 r3 H2 Hg Hfl|s2 rs2 e H2 Hg]; subst.
      + eapply vfollow_trans; [|pose proof (flush_same io s2) as Hf; rewrite Hfl in Hf; exact Hf].
        eapply owp_reach; [|exact H2]. intros i p Hi. apply list_lookup_fmap_inv in Hi as (j & -> & _). apply owp_worker2.
      + eapply owp_reach; [|exact H2]. intros i p Hi. apply list_lookup_fmap_inv in Hi as (j & -> & _). apply owp_worker2.
    - by destruct (Hnd io id).
    - unfold CollModel.get in Hx. rewrite exec_act in Hx. apply (inj Some), pair_inj in Hx as [-> _]. apply vfollow_refl.
    - assert (keep_store s s') as (_&_&_&_&K5&K6&_); [|by apply vfollow_same].
      eapply (steps_exec keep_store); [apply keep_store_refl|apply keep_store_trans| |exact Hx]. unfold semantic_search.
      apply steps_bind; [by apply steps_act|intros _]. apply steps_bind; [done|intros [|o1 [|? ?]]; try done].
      apply steps_bind; [apply search_keep_store|intros es]. apply steps_bind; [by apply steps_act|intros objs]. apply steps_bind; [done|intros hs]. done.
    - unfold get_size in Hx. rewrite exec_act in Hx. apply (inj Some), pair_inj in Hx as [-> _]. apply vfollow_refl.
    - unfold CollModel.update, check_open in Hx. rewrite exec_act in Hx. apply (inj Some), pair_inj in Hx as [-> _]. apply vfollow_refl.
    - unfold CollModel.close in Hx. rewrite exec_act in Hx. apply (inj Some) in Hx. destruct (closed s); apply pair_inj in Hx as [<- _]; [apply vfollow_refl|by apply vfollow_same].
  Qed.
  Lemma cut_follow s c s' : call_cut C s c s' -> (forall io id, c <> CDelete io id) -> vfollow s s'.
  Proof.
    intros Hr Hnd. inversion Hr as [|io level o s1 ts Hx|io ol os s1 ts Hp Hx|io ol os s1 ts Hp Hx|io id f s1 ts Hlk Hx]; subst.
    - apply vfollow_refl.
    - eapply owp_reach; [|exact Hx]. intros [|i] p Hi; [|done]. apply (inj Some) in Hi as <-. apply owp_insert.
    - eapply owp_reach; [|exact Hx]. intros i p Hi. apply list_lookup_fmap_inv in Hi as (j & -> & _). apply owp_worker.
    - eapply (vfollow_trans _ (set_chan (zip os ol.*2) s)); [by apply vfollow_same|].
      eapply owp_reach; [|exact Hx]. intros i p Hi. apply list_lookup_fmap_inv in Hi as (j & -> & _). apply owp_worker2.
    - by destruct (Hnd io id).
  Qed.

  Lemma log_view_wlog s r : r ∈ wlog s -> r ∈ log_view s.
  Proof. unfold log_view. set_solver. Qed.

  (** Delete: the object is gone, the record is buffered; on success it is on disk. *)
  Lemma delete_covered f io id s s' r :
    exec (delete_found f io id) s = Some (s', r) ->
    (covered (log_view s) s -> covered (log_view s') s') /\ (r = Val tt -> covered (wlog s) s -> covered (wlog s') s').
  Proof.
    intros Hx. assert (Hsm : forall l l', (forall r, r ∈ l -> r ∈ l') -> covered l s -> covered l' s).
    { intros l l' Hl. by apply covered_follow; [|apply vfollow_refl]. }
    unfold delete_found in Hx. rewrite exec_bind, exec_act in Hx.
    destruct f as [[ob|]|e|z]; [|apply (inj Some), pair_inj in Hx as [<- _]; by split..].
    rewrite exec_bind in Hx. unfold delete_object in Hx. rewrite exec_act in Hx.
    destruct (closed s) eqn:Ecl; [apply (inj Some), pair_inj in Hx as [<- <-]; by split|].
    set (s1 := set_objs (delete (id_key id) (objs s)) s) in Hx. rewrite exec_bind in Hx. unfold hnsw_delete in Hx.
    destruct (enc_delete id) as [rec|e|z] eqn:Er; [|done..]. rewrite exec_act in Hx.
    set (s2 := set_deleted _ _) in Hx. unfold flush in Hx. rewrite exec_act in Hx. apply (inj Some) in Hx.
    assert (Hlv : log_view s2 = log_view s ++ [rec]) by (unfold log_view; cbn; by rewrite fmap_app, app_assoc).
    assert (Hst : objs s2 = delete (id_key id) (objs s) /\ vecs s2 = vecs s /\ wlog s2 = wlog s) by done.
    clearbody s2. destruct Hst as (E1 & E2 & E3).
    assert (Hfl : log_view s' = log_view s2 /\ objs s' = objs s2 /\ vecs s' = vecs s2 /\ (r = Val tt -> wlog s' = log_view s2)).
    { unfold wal_flush in Hx. unfold log_view. destruct (batch s2) as [|x l] eqn:Eb.
      - apply pair_inj in Hx as [<- <-]. rewrite Eb. cbn. by rewrite app_nil_r.
      - destruct (in_order _ _); [|apply pair_inj in Hx as [<- <-]; by rewrite Eb]. destruct io; apply pair_inj in Hx as [<- <-].
        + cbn. rewrite app_nil_r. done.
        + cbn. rewrite ?Eb. done. }
    destruct Hfl as (F1 & F2 & F3 & F4).
    assert (Hall : forall l l', (forall x, x ∈ l -> x ∈ l') -> rec ∈ l' -> covered l s -> covered l' s').
    { intros l l' Hl Hrec Hc i Hi Hv. rewrite F3, E2 in Hv. rewrite F2, E1. destruct (decide (id_key i = id_key id)) as [Ek|Hne].
      - right. exists rec. split; [|done]. rewrite <- Er, !enc_delete_eq. unfold id_key in Ek. by rewrite Ek.
      - rewrite lookup_delete_ne by done. destruct (Hc i Hi Hv) as [?|(x & He & Hx')]; [by left|right]. exists x. split; [done|]. by apply Hl. }
    split.
    - apply Hall; rewrite F1, Hlv; set_solver.
    - intros Hr. rewrite (F4 Hr), Hlv. apply Hall; [|set_solver]. intros x Hx'. apply elem_of_app. left. by apply log_view_wlog.
  Qed.

  Lemma run_covered s c s' r : call_run C s c s' r -> covered (log_view s) s -> covered (log_view s') s'.
  Proof.
    intros Hr Hc. assert (Hd : (exists io id, c = CDelete io id) \/ forall io id, c <> CDelete io id).
    { destruct c; try (right; by intros ? ?). left. by eexists _, _. }
    destruct Hd as [(io & id & ->)|Hd].
    - inversion Hr as [| | | | |io' id' f s1 r1 Hlk Hx| | | | |]; subst. by eapply delete_covered.
    - eapply covered_follow; [|by eapply run_follow|exact Hc]. destruct (wr_run C _ _ _ _ Hr) as (_ & (l & ->) & _). set_solver.
  Qed.
  Lemma safe_covered s e s' : ev_step C s e s' -> ev_safe e -> covered (wlog s) s -> covered (wlog s') s'.
  Proof.
    intros Hs Hsafe Hc. inversion Hs as [c s1 r Hr|s1 Hr|c n s1 s2 Hcut Hr]; subst.
    - assert (Hd : (exists io id, c = CDelete io id) \/ forall io id, c <> CDelete io id).
      { destruct c; try (right; by intros ? ?). left. by eexists _, _. }
      destruct Hd as [(io & id & ->)|Hd].
      + inversion Hr as [| | | | |io' id' f s1 r1 Hlk Hx| | | | |]; subst. cbn in Hsafe. subst. by eapply delete_covered.
      + eapply covered_follow; [|by eapply run_follow|exact Hc]. destruct (wr_run C _ _ _ _ Hr) as (_ & _ & (l & ->)). set_solver.
    - destruct (reopen_store _ _ Hr) as (_&_&R3&R4&_&_&_&R8&_). rewrite R8. eapply (covered_follow (wlog s) _ s); [|by apply vfollow_same|exact Hc]. done.
    - destruct (reopen_store _ _ Hr) as (_&_&R3&R4&_&_&_&R8&_). rewrite R8. cbn in *.
      destruct (wr_cut C _ _ _ Hcut) as (_ & _ & (l & El)).
      eapply (covered_follow (wlog s) _ s); [|eapply (vfollow_trans _ s1); [eapply cut_follow; [exact Hcut|]|by apply vfollow_same]|done].
      + rewrite El. set_solver.
      + intros io id ->. done.
  Qed.
  Lemma covered_empty l : covered l empty_st.
  Proof. intros id _ [x Hx]. done. Qed.
  Lemma hist_covered h1 h2 s :
    hist C empty_st (h1 ++ h2) s -> Forall ev_safe h1 -> Forall no_reopen h2 -> covered (log_view s) s.
  Proof.
    intros Hh Hs Hn. apply hist_app_inv in Hh as (s1 & H1 & H2).
    assert (Hc : covered (wlog s1) s1).
    { clear H2. induction H1 as [|h e s2 s3 H1 IH Hstep]; [apply covered_empty|].
      apply Forall_app in Hs as [Hs He]. apply Forall_cons in He as [He _]. eapply safe_covered; [done..|]. by apply IH. }
    assert (Hc2 : covered (log_view s1) s1) by (eapply covered_follow; [|apply vfollow_refl|exact Hc]; apply log_view_wlog).
    clear H1 Hc. induction H2 as [|h e s2 s3 H2 IH Hstep]; [done|].
    apply Forall_app in Hn as [Hn He]. apply Forall_cons in He as [He _]. inversion Hstep; subst; try done. eapply run_covered; [done|]. by apply IH.
  Qed.
End hist.

(** ** The live vertices have stored objects *)
Definition aligned (s : st) : Prop :=
  forall id, is_Some (nodes s !! id) -> id ∉ deleted s -> is_Some (objs s !! id_key id) /\ is_Some (vecs s !! id_key id).
Lemma enc_elem os rs o : Forall2 (fun o r => enc_wop o = Val r) os rs -> o ∈ os -> exists r, enc_wop o = Val r /\ r ∈ rs.
Proof.
  intros H Ho. apply elem_of_list_lookup in Ho as [i Hi]. destruct (Forall2_lookup_l _ _ _ _ _ H Hi) as (r & Hr & He).
  exists r. split; [done|]. by eapply elem_of_list_lookup_2.
Qed.
Lemma elem_enc os rs r : Forall2 (fun o r => enc_wop o = Val r) os rs -> r ∈ rs -> exists o, enc_wop o = Val r /\ o ∈ os.
Proof.
  intros H Ho. apply elem_of_list_lookup in Ho as [i Hi]. destruct (Forall2_lookup_r _ _ _ _ _ H Hi) as (o & Hr & He).
  exists o. split; [done|]. by eapply elem_of_list_lookup_2.
Qed.
Lemma wop_apply_gone o s s' id : wop_apply o s = Val s' -> o = WDelete id \/ id ∈ deleted s -> id ∈ deleted s'.
Proof.
  intros H Hor. destruct o as [i l|i l|i l ns|i l n|i]; cbn [wop_apply] in H.
  1,2: apply Val_inj in H as <-; destruct Hor as [Hor|Hor]; [discriminate Hor|exact Hor].
  1,2: destruct (nodes s !! i) as [v|]; [|done]; destruct (decide _); [|done]; apply Val_inj in H as <-; destruct Hor as [Hor|Hor]; [discriminate Hor|exact Hor].
  apply Val_inj in H as <-. cbn. destruct Hor as [[= ->]|Hor]; set_solver.
Qed.
Lemma wops_apply_gone os : forall s s' id, wops_apply os s = Val s' -> WDelete id ∈ os \/ id ∈ deleted s -> id ∈ deleted s'.
Proof.
  induction os as [|o os IH]; intros s s' id; cbn [wops_apply].
  - intros <-%Val_inj [H|H]; [by apply elem_of_nil in H|done].
  - destruct (wop_apply o s) as [s1| |] eqn:E; [|done..]. cbn [mbind out_bind]. intros H Hor. eapply IH; [exact H|].
    rewrite elem_of_cons in Hor. destruct Hor as [[<-|Hin]|Hin]; [right|by left|right].
    + eapply wop_apply_gone; [exact E|by left].
    + eapply wop_apply_gone; [exact E|by right].
Qed.
Lemma covered_aligned s : PInv s -> covered (log_view s) s -> aligned s.
Proof.
  intros (os & b & HW) Hc id [v Hv] Hd.
  assert (Hn : p_n (pview s) !! id = Some (v_conns v, v_vec v)) by (cbn; rewrite lookup_fmap, Hv; done).
  pose proof (pw_ids _ _ _ _ HW id (ltac:(by eexists))) as Hlt. pose proof (pw_cnt _ _ _ _ HW) as Hc2. cbn in Hlt, Hc2.
  destruct (pw_vec _ _ _ _ HW _ _ _ Hn) as (vb & Hvb & _). cbn in Hvb. assert (Hvs : is_Some (vecs s !! id_key id)) by (by eexists).
  destruct (Hc id) as [Ho|(r & He & Hr)]; [lia|done|done|]. exfalso. apply Hd.
  pose proof (pw_enc _ _ _ _ HW) as Henc. cbn in Henc. destruct (elem_enc _ _ _ Henc Hr) as (o & Ho & Hin).
  pose proof (pw_ok _ _ _ _ HW) as Hok. rewrite Forall_forall in Hok.
  assert (o = WDelete id) as -> by (eapply enc_wop_inj; [by apply Hok|unfold wop_ok, id_ok; lia|done|done]).
  pose proof (pw_del _ _ _ _ HW) as Hdel. cbn in Hdel. rewrite <- Hdel. eapply wops_apply_gone; [apply (pw_app _ _ _ _ HW)|by left].
Qed.

(** ** What a search that answers has looked at *)
Section found.
  Context (P : hparams) (t fuel : nat) (q : fvec) (s : st).
  (** The element is a vertex with its distance from the query. *)
  Definition found (e : elem) : Prop := exists v, nodes s !! e_id e = Some v /\ dist P (v_vec v) q = Val (e_dist e).
  Definition sfound (x : slstate) : Prop := Forall found (sl_cands x) /\ Forall found (sl_near x).

  Lemma consider_found ef n d x x' : found (Elem n d) -> sfound x -> consider ef n d x = Val x' -> sfound x'.
  Proof.
    intros Hf [H1 H2]. unfold consider. destruct (heap_peek _) as [f| |]; [|done..]. cbn [mbind out_bind].
    destruct (_ || _); [|by intros <-%Val_inj].
    assert (H3 : Forall found (heap_push min_less (sl_cands x) (Elem n d))) by (rewrite heap_push_perm; by constructor).
    assert (H4 : Forall found (heap_push max_less (sl_near x) (Elem n d))) by (rewrite heap_push_perm; by constructor).
    destruct (_ <? _); [|by intros <-%Val_inj]. destruct (heap_pop _ _) as [[y near']| |] eqn:Ep; [|done..]. intros <-%Val_inj.
    split; [done|]. apply heap_pop_perm in Ep. rewrite Ep in H4. by apply Forall_cons in H4 as [_ ?].
  Qed.
  Lemma visit_found ef cs : forall x s' x', sfound x -> exec (visit_conns P q ef cs x) s = Some (s', Val x') -> sfound x'.
  Proof.
    induction cs as [|n cs IH]; intros x s' x' Hx He; cbn [visit_conns] in He.
    - cbn in He. apply (inj Some), pair_inj in He as [_ He]. by apply Val_inj in He as <-.
    - case_bool_decide; [by eapply IH|]. apply exec_bind_val in He as (s1 & f & H1 & He). rewrite exec_lift in H1. apply Some_pair_inj in H1 as [<- _].
      apply exec_bind_val in He as (s2 & v & H2 & He). unfold read_vertex in H2. rewrite exec_act in H2. apply Some_pair_inj in H2 as [<- Hv].
      apply exec_bind_val in He as (s3 & d & H3 & He). rewrite exec_lift in H3. apply Some_pair_inj in H3 as [<- Hd].
      apply exec_bind_val in He as (s4 & y & H4 & He). rewrite exec_lift in H4. apply Some_pair_inj in H4 as [<- Hy].
      eapply IH; [|exact He]. eapply consider_found; [| |exact Hy]; [|by destruct Hx]. exists v. split; [|done]. cbn. destruct (nodes s !! n) as [w|]; [|done].
      by apply Val_inj in Hv as ->.
  Qed.
  Lemma loop_found ef l f : forall x s' x', sfound x -> exec (search_loop P t f q ef l x) s = Some (s', Val x') -> sfound x'.
  Proof.
    induction f as [|f IH]; intros x s' x' Hx He; cbn [search_loop] in He.
    { destruct (sl_cands x); [|done]. cbn in He. apply (inj Some), pair_inj in He as [_ He]. by apply Val_inj in He as <-. }
    destruct (sl_cands x) as [|c0 cs0] eqn:Ec.
    { cbn in He. apply (inj Some), pair_inj in He as [_ He]. by apply Val_inj in He as <-. }
    rewrite <- Ec in He. apply exec_bind_val in He as (s1 & [c cands] & H1 & He). rewrite exec_lift in H1. apply Some_pair_inj in H1 as [<- Hp].
    apply exec_bind_val in He as (s2 & g & H2 & He). rewrite exec_lift in H2. apply Some_pair_inj in H2 as [<- _].
    assert (Hx1 : sfound (SL (sl_visited x) cands (sl_near x))).
    { destruct Hx as [X1 X2]. split; [|done]. apply heap_pop_perm in Hp. rewrite Hp in X1. by apply Forall_cons in X1 as [_ ?]. }
    destruct (fltb _ _).
    { cbn in He. apply (inj Some), pair_inj in He as [_ He]. by apply Val_inj in He as <-. }
    apply exec_bind_val in He as (s3 & conns & H3 & He). apply pure_read_conns in H3 as ->.
    apply exec_bind_val in He as (s4 & y & H4 & He). pose proof (pure_visit_conns _ _ _ _ _ _ _ _ H4) as ->.
    eapply IH; [|exact He]. by eapply visit_found.
  Qed.
  Lemma layer_found eps ef l s' near : Forall found eps -> exec (search_layer P t fuel q eps ef l) s = Some (s', Val near) -> Forall found near.
  Proof.
    intros Heps He. unfold search_layer in He. apply exec_bind_val in He as (s1 & cands & H1 & He). rewrite exec_lift in H1. apply Some_pair_inj in H1 as [<- Hc].
    apply exec_bind_val in He as (s2 & nr & H2 & He). rewrite exec_lift in H2. apply Some_pair_inj in H2 as [<- Hn].
    apply exec_bind_val in He as (s3 & x & H3 & He). cbn in He. apply (inj Some), pair_inj in He as [_ He]. apply Val_inj in He as <-.
    eapply loop_found; [|exact H3]. unfold new_min_heap_deep in Hc. unfold new_max_heap_deep in Hn. destruct (decide _); [|done].
    apply Val_inj in Hc as <-. apply Val_inj in Hn as <-. split; cbn; by rewrite heap_init_perm.
  Qed.
  Lemma descend_found stop l : forall e s' e', found e -> exec (descend P t fuel q l stop e) s = Some (s', Val e') -> found e'.
  Proof.
    induction l as [|l IH]; intros e s' e' Hf He; cbn [descend] in He.
    { cbn in He. apply (inj Some), pair_inj in He as [_ He]. by apply Val_inj in He as <-. }
    destruct (stop <? S l).
    - apply exec_bind_val in He as (s1 & near & H1 & He). pose proof (pure_search_layer _ _ _ _ _ _ _ _ _ _ H1) as ->.
      apply exec_bind_val in He as (s2 & e1 & H2 & He). rewrite exec_lift in H2. apply Some_pair_inj in H2 as [<- Hh].
      eapply IH; [|exact He]. apply layer_found in H1; [|by repeat constructor]. destruct near as [|y near]; [done|]. apply Val_inj in Hh as <-.
      by apply Forall_cons in H1 as [? _].
    - cbn in He. apply (inj Some), pair_inj in He as [_ He]. by apply Val_inj in He as <-.
  Qed.
  Lemma take_live_found dels n : forall h k es, Forall found h -> take_live n h dels k = Val es -> Forall (fun e => found e /\ e_id e ∉ dels) es.
  Proof.
    induction n as [|n IH]; intros h k es Hh; cbn [take_live].
    - destruct h, k; try done; intros <-%Val_inj; constructor.
    - destruct h as [|x0 h0] eqn:Eh; [intros <-%Val_inj; constructor|]. destruct k as [|k]; [intros <-%Val_inj; constructor|]. rewrite <- Eh in *. clear Eh.
      destruct (heap_pop _ _) as [[e h']| |] eqn:Ep; [|done..]. apply heap_pop_perm in Ep. rewrite Ep in Hh. apply Forall_cons in Hh as [He Hh].
      cbn [mbind out_bind]. case_bool_decide; [by apply IH|]. destruct (take_live n h' dels k) as [r| |] eqn:Er; [|done..]. intros <-%Val_inj.
      constructor; [done|]. by eapply IH.
  Qed.
  Lemma search_found k s' es : exec (hnsw_search P t fuel q k) s = Some (s', Val es) -> Forall (fun e => found e /\ e_id e ∉ deleted s) es.
  Proof.
    intros He. unfold hnsw_search in He. destruct (k <? 0)%Z; [done|]. apply exec_bind_val in He as (s1 & [[i v] cur] & H1 & He).
    unfold read_entry in H1. rewrite exec_act in H1. apply Some_pair_inj in H1 as [<- Hv]. destruct (nodes s !! ep s) as [w|] eqn:Ew; [|done].
    apply Val_inj in Hv. apply exec_bind_val in He as (s2 & d & H2 & He). rewrite exec_lift in H2. apply Some_pair_inj in H2 as [<- Hd].
    injection Hv as <- <- <-.
    apply exec_bind_val in He as (s3 & e & H3 & He). pose proof (pure_descend _ _ _ _ _ _ _ _ _ _ H3) as ->. apply descend_found in H3; [|by exists w].
    apply exec_bind_val in He as (s4 & near & H4 & He). pose proof (pure_search_layer _ _ _ _ _ _ _ _ _ _ H4) as ->.
    apply layer_found in H4; [|by repeat constructor].
    apply exec_bind_val in He as (s5 & dels & H5 & He). rewrite exec_act in H5. apply Some_pair_inj in H5 as [<- Hdl]. apply Val_inj in Hdl as <-.
    rewrite exec_lift in He. apply Some_pair_inj in He as [_ He]. eapply take_live_found; [|exact He]. unfold new_min_heap. by rewrite heap_init_perm.
  Qed.
End found.

(** ** The hits of a search *)
(** [h] is the hit for the index result [e]: the same id, the same distance and
    the stored properties. *)
Definition hit_of (C : cparams) (s : st) (e : elem) (h : hit) : Prop :=
  h_id h = e_id e /\ h_dist h = e_dist e /\
  exists ob, objs s !! id_key (e_id e) = Some ob /\ de_props (cp_json C) ob = Val (h_props h).

Lemma get_objects_all C s ids os :
  (forall id, id ∈ ids -> is_Some (objs s !! id_key id) /\ is_Some (vecs s !! id_key id)) ->
  get_objects (cp_json C) s ids = Val os ->
  Forall2 (fun id o => o_id o = id /\ exists ob, objs s !! id_key id = Some ob /\ de_props (cp_json C) ob = Val (o_props o)) ids os.
Proof.
  revert os. induction ids as [|id ids IH]; intros os Hall; cbn [get_objects].
  { intros <-%Val_inj. constructor. }
  destruct (Hall id) as [[ob Hob] [vb Hvb]]; [by left|]. unfold get_object. rewrite Hob, Hvb. destruct (closed s); [done|].
  destruct (de_props (cp_json C) ob) as [p| |] eqn:Ep; [|done..]. cbn [mbind out_bind]. destruct (de_vec vb) as [v| |]; [|done..]. cbn [mbind out_bind].
  destruct (get_objects (cp_json C) s ids) as [l| |] eqn:El; [|done..]. intros <-%Val_inj. constructor; [|apply IH; [set_solver|done]].
  split; [done|]. by exists ob.
Qed.
Lemma pair_results_all C s es : forall os hs,
  Forall2 (fun id o => o_id o = id /\ exists ob, objs s !! id_key id = Some ob /\ de_props (cp_json C) ob = Val (o_props o)) (e_id <$> es) os ->
  pair_results os es = Val hs -> Forall2 (hit_of C s) es hs.
Proof.
  induction es as [|e es IH]; intros os hs H.
  { inversion H; subst. intros <-%Val_inj. constructor. }
  inversion H as [|? o ? os' [Hid Hob] Hr]; subst. cbn [pair_results]. destruct (pair_results os' es) as [r| |] eqn:Er; [|done..]. intros <-%Val_inj.
  constructor; [by split_and!|]. by eapply IH.
Qed.
Lemma search_aligned C s o k s' n hs :
  aligned s -> exec (semantic_search C 0 o k) s = Some (s', Val (n, hs)) ->
  exists o' es, embed_objects C [o] = Val [o'] /\
    exec (hnsw_search (cp_h C) 0 (cp_fuel C) (vec_or_nil o') k) s = Some (s, Val es) /\
    n = length hs /\ Forall2 (hit_of C s) es hs.
Proof.
  intros Ha Hx. unfold semantic_search in Hx. apply exec_bind_val in Hx as (s1 & u & H1 & Hx).
  unfold check_open in H1. rewrite exec_act in H1. apply Some_pair_inj in H1 as [<- _].
  apply exec_bind_val in Hx as (s2 & os & H2 & Hx). rewrite exec_lift in H2. apply Some_pair_inj in H2 as [<- Hemb].
  destruct os as [|o' [|? ?]]; [done| |done]. apply exec_bind_val in Hx as (s3 & es & H3 & Hx). pose proof (pure_search _ _ _ _ _ _ _ _ H3) as ->.
  apply exec_bind_val in Hx as (s4 & ob & H4 & Hx). rewrite exec_act in H4. apply Some_pair_inj in H4 as [<- Hob].
  apply exec_bind_val in Hx as (s5 & hs' & H5 & Hx). rewrite exec_lift in H5. apply Some_pair_inj in H5 as [<- Hhs].
  cbn in Hx. apply Some_pair_inj in Hx as [_ Hx]. apply Val_inj, pair_inj in Hx as [<- ->].
  exists o', es. split; [done|]. split; [done|].
  assert (HF : Forall2 (hit_of C s) es hs).
  { eapply pair_results_all; [|exact Hhs]. eapply get_objects_all; [|exact Hob]. intros id Hid. apply elem_of_list_fmap in Hid as (e & -> & He).
    apply search_found in H3. rewrite Forall_forall in H3. destruct (H3 e He) as [(v & Hv & _) Hd]. apply Ha; [by eexists|done]. }
  split; [|done]. by eapply Forall2_length.
Qed.
