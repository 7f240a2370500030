(** The index log along whole histories: parallel batches under every schedule,
    calls that panic or fail, disks that refuse writes, restarts and crashes. *)
From stdpp Require Import relations.
From Verif Require Import GoBase FloatModel HeapModel ProgModel StateModel WalModel HnswModel StoreModel CollModel CallModel
  ProofBase CodecProofs CodecSpec LogProofs FloatProofs HeapProofs WpProofs StepProofs SeqLog SimProofs StoreProofs CallProofs HistProofs WalProofs RestoreProofs ParLog.
Open Scope nat_scope.
Local Arguments id_key _ : simpl never.
Local Arguments le_put _ _ : simpl never.

(** ** Between calls no thread is in the middle of anything *)
Lemma pW0_collapse ps u os b : pW0 ps u os b -> Forall settled ps -> pW0 [] u os b.
Proof.
  intros [W1 W2 W3 W4 W5 W6 W7 W8 W9 W10 W11 W12 W13 W14 W15 W16 W17] Hs. rewrite Forall_forall in Hs. split; try done.
  - intros id H. destruct (W8 id H) as [?|(i & vec & l & Hi)]; [by left|]. by apply elem_of_list_lookup_2, Hs in Hi.
  - intros k H. destruct (W11 k H) as (id & -> & Hlt & Hd). exists id. split_and!; [done..|]. destruct Hd as [?|(i & vec & Hi)]; [by left|].
    by apply elem_of_list_lookup_2, Hs in Hi.
Qed.
Lemma pW0_idle ps u os b : pW0 [] u os b -> Forall (fun p => p = Idle) ps -> pW0 ps u os b.
Proof.
  intros [W1 W2 W3 W4 W5 W6 W7 W8 W9 W10 W11 W12 W13 W14 W15 W16 W17] Hs.
  assert (H0 : forall i p, ps !! i = Some p -> p = Idle) by (rewrite Forall_forall in Hs; intros i p Hi; by eapply Hs, elem_of_list_lookup_2).
  split; try done.
  - intros id H. destruct (W8 id H) as [?|(i & vec & l & Hi)]; [by left|done].
  - intros k H. destruct (W11 k H) as (id & -> & Hlt & Hd). exists id. split_and!; [done..|]. destruct Hd as [?|(i & vec & Hi)]; [by left|done].
  - intros i id vec Hi. by apply H0 in Hi.
  - intros i id vec l Hi. by apply H0 in Hi.
  - intros i p id Hi Ho. apply H0 in Hi as ->. done.
  - intros i j p q id Hi Hj Ho. apply H0 in Hi as ->. done.
Qed.
Definition PInv (s : st) : Prop := exists os b, pW0 [] (pview s) os b.

Lemma PInv_empty : PInv empty_st.
Proof.
  exists [], empty_st. split; try done; try (by intros id [x Hx]); try (by constructor). split; [done|constructor].
Qed.
Lemma PInv_same s s' : pview s' = pview s -> PInv s -> PInv s'.
Proof. unfold PInv. by intros ->. Qed.
Lemma PInv_chan s L : Forall fed_ok L -> PInv s -> PInv (set_chan L s).
Proof.
  intros HL (os & b & [W1 W2 W3 W4 W5 W6 W7 W8 [W9 _] W10 W11 W12 W13 W14 W15 W16 W17]). exists os, b. split; try done.
Qed.

Section hist.
  Context (C : cparams).
  Notation P := (cp_h C).
  Context (Hmax : (cp_maxval C < 2 ^ 32)%N).
  Context (Hdeg : (N.of_nat (Nat.max (hp_m P) (2 * hp_mMax P)) < 2 ^ 32)%N).

  Definition pWs (xs : list pg) (s : st) : Prop := pW xs (pview s).

  Lemma par_reach {A} (xs0 : list pg) (ts0 : list (prog st A)) s s' ts' :
    PInv s -> Forall (fun x => pg_ph x = Idle) xs0 ->
    (cnt s + N.of_nat (sum_list (pg_bud <$> xs0) + length (chan s)) < 2 ^ 64)%N -> length xs0 = length ts0 ->
    (forall i x p, xs0 !! i = Some x -> ts0 !! i = Some p -> pK x s -> pwp p (fun x r s => settled (pg_ph x)) x s) ->
    rtc mstep (s, ts0) (s', ts') ->
    (exists xs os b, pW0 (pg_ph <$> xs) (pview s') os b) /\ (forall rs, ts' = Done <$> rs -> PInv s').
  Proof using Hmax Hdeg.
    intros (os & b & HW) Hx Hb Hl Hp Hr.
    assert (HW0 : pWs xs0 s).
    { split; [|done]. exists os, b. apply pW0_idle; [done|]. apply Forall_fmap. eapply Forall_impl; [exact Hx|]. done. }
    destruct (all_wp_rtc pE pGU pB pE_refl pE_trans pWs pW_step (fun (_ : nat) x (_ : out A) (_ : st) => settled (pg_ph x)) xs0 _ _ Hr) as [xs Ha].
    { cbn [fst snd]. split; [done|]. split; [done|]. intros i x p Hi Hti. apply (Hp i x p); [done..|].
      destruct HW0 as [_ Hc]. split_and!; [apply (pw_J _ _ _ _ HW)| |].
      - unfold room. pose proof (sum_bud_ge _ _ _ Hi). cbn in *. lia.
      - rewrite Forall_forall in Hx. rewrite (Hx x); [done|]. by eapply elem_of_list_lookup_2. }
    cbn [fst snd] in Ha. split.
    - destruct Ha as (_ & [(os' & b' & HW') _] & _). by exists xs, os', b'.
    - intros rs ->. destruct (all_wp_done _ _ _ pE_refl _ _ _ _ _ Ha) as (Hl' & [(os' & b' & HW') _] & HQ).
      exists os', b'. eapply pW0_collapse; [exact HW'|]. apply Forall_fmap, Forall_lookup. intros i x Hi. cbn.
      destruct (lookup_lt_is_Some_2 rs i) as [r Hr']; [rewrite <- Hl'; by eapply lookup_lt_Some|]. by eapply HQ.
  Qed.

  (** What a call is given fits the formats: levels 32 bits, ids 64 bits,
      vector components 32-bit patterns. *)
  Definition call_levels (c : call) : list nat :=
    match c with CInsert _ l _ => [l] | CBatch _ ol | CBatch2 _ ol => ol.*2 | _ => [] end.
  Definition call_fed (c : call) : Prop :=
    Forall level_ok (call_levels c) /\
    (forall os, embed_objects C (submitted c) = Val os -> Forall (fun o => floats_ok (vec_or_nil o)) os) /\
    match c with CDelete _ id => id_ok id | _ => True end.
  Definition ev_fed (e : event) : Prop :=
    match e with EvCall c _ | EvCrash c _ => call_fed c | EvRestart => True end.

  Lemma fed_zip os ls : Forall (fun o => floats_ok (vec_or_nil o)) os -> Forall level_ok ls -> Forall fed_ok (zip os ls).
  Proof using.
    intros Ho. revert ls. induction Ho as [|o os Ho _ IH]; intros ls Hls; [constructor|]. destruct Hls as [|l ls Hl Hls]; [constructor|].
    cbn. constructor; [done|]. by apply IH.
  Qed.

  Lemma insert_par io level o s s' ts :
    PInv s -> chan s = [] -> (cnt s + 1 < 2 ^ 64)%N -> call_fed (CInsert io level o) ->
    rtc mstep (s, [CollModel.insert C 0 io level o]) (s', ts) ->
    (exists xs os b, pW0 (pg_ph <$> xs) (pview s') os b) /\ (forall r, ts = [Done r] -> PInv s').
  Proof using Hmax Hdeg.
    intros HP Hch Hc (Hlv & Hf & _) Hr. apply Forall_cons in Hlv as [Hlv _].
    destruct (par_reach [PG Idle 1] [CollModel.insert C 0 io level o] s s' ts) as [H1 H2]; try done.
    - by repeat constructor.
    - rewrite Hch. cbn. lia.
    - intros [|i] x p Hi Hp HK; [|done]. injection Hi as <-. injection Hp as <-. apply (pwp_insert C Hmax Hdeg); try done.
      intros os o' He Ho. specialize (Hf os He). rewrite Forall_forall in Hf. by apply Hf.
    - split; [done|]. intros r ->. by apply (H2 [r]).
  Qed.
  Lemma delete_par f io id s s' ts :
    PInv s -> chan s = [] -> id_ok id -> rtc mstep (s, [delete_found f io id]) (s', ts) ->
    (exists xs os b, pW0 (pg_ph <$> xs) (pview s') os b) /\ (forall r, ts = [Done r] -> PInv s').
  Proof using Hmax Hdeg.
    intros HP Hch Hid Hr. destruct (par_reach [PG Idle 0] [delete_found f io id] s s' ts) as [H1 H2]; try done.
    - by repeat constructor.
    - destruct HP as (os & b & HW). rewrite Hch. cbn. pose proof (pw_cnt _ _ _ _ HW). cbn in *. lia.
    - intros [|i] x p Hi Hp HK; [|done]. injection Hi as <-. injection Hp as <-.
      eapply wp_mono; [|by apply (ps_delete C Hmax Hdeg)]. by intros x' r s1 (-> & _).
    - split; [done|]. intros r ->. by apply (H2 [r]).
  Qed.
  Lemma search_par o k s s' r :
    PInv s -> chan s = [] -> exec (semantic_search C 0 o k) s = Some (s', r) -> PInv s'.
  Proof using Hmax Hdeg.
    intros HP Hch Hr%exec_rtc. destruct (par_reach [PG Idle 0] [semantic_search C 0 o k] s s' [Done r]) as [H1 H2]; try done.
    - by repeat constructor.
    - destruct HP as (os & b & HW). rewrite Hch. cbn. pose proof (pw_cnt _ _ _ _ HW). cbn in *. lia.
    - intros [|i] x p Hi Hp HK; [|done]. injection Hi as <-. injection Hp as <-.
      eapply wp_mono; [|by apply (ps_search C Hmax Hdeg)]. by intros x' r' s1 (-> & _).
    - by apply (H2 [r]).
  Qed.
  Lemma batch_par os s s' ts :
    PInv s -> chan s = [] -> (cnt s + N.of_nat (length os) < 2 ^ 64)%N -> Forall fed_ok os ->
    rtc mstep (s, batch_threads C os) (s', ts) ->
    (exists xs os b, pW0 (pg_ph <$> xs) (pview s') os b) /\ (forall rs, ts = Done <$> rs -> PInv s').
  Proof using Hmax Hdeg.
    intros HP Hch Hc Hf Hr.
    set (xs0 := (fun i => PG Idle (length (chunk (cp_workers C) i os) + 0)) <$> seq 0 (cp_workers C)).
    assert (Hsum : sum_list (pg_bud <$> xs0) <= length os).
    { unfold xs0. rewrite <- list_fmap_compose. etrans; [|apply (chunk_length_sum (cp_workers C))]. apply Nat.eq_le_incl. f_equal.
      apply list_fmap_ext. intros _ i _. cbn. lia. }
    apply (par_reach xs0 (batch_threads C os) s); try done.
    - unfold xs0. by apply Forall_fmap, Forall_true.
    - rewrite Hch. cbn. lia.
    - unfold xs0, batch_threads. by rewrite !fmap_length.
    - intros i x p Hi Hp HK. unfold xs0, batch_threads in *. rewrite list_lookup_fmap in Hi. rewrite list_lookup_fmap in Hp.
      destruct (seq 0 (cp_workers C) !! i) as [j|] eqn:Ei; [|done]. cbn in Hi, Hp. injection Hi as <-. injection Hp as <-.
      apply (pwp_worker C Hmax Hdeg); [done| |done]. unfold chunk. by apply Forall_take, Forall_drop.
  Qed.
  Lemma batch2_par os s s' ts :
    PInv s -> (cnt s + N.of_nat (length os) < 2 ^ 64)%N -> Forall fed_ok os ->
    rtc mstep (set_chan os s, batch2_threads C os) (s', ts) ->
    (exists xs os b, pW0 (pg_ph <$> xs) (pview s') os b) /\ (forall rs, ts = Done <$> rs -> PInv s').
  Proof using Hmax Hdeg.
    intros HP Hc Hf Hr.
    set (xs0 := (fun i : nat => PG Idle 0) <$> seq 0 (cp_workers C)).
    assert (Hsum : sum_list (pg_bud <$> xs0) = 0).
    { unfold xs0. rewrite <- list_fmap_compose. induction (seq 0 (cp_workers C)) as [|y l IH]; [done|]. cbn. exact IH. }
    apply (par_reach xs0 (batch2_threads C os) (set_chan os s)); try done.
    - by apply PInv_chan.
    - unfold xs0. by apply Forall_fmap, Forall_true.
    - rewrite Hsum. cbn. lia.
    - unfold xs0, batch2_threads. by rewrite !fmap_length.
    - intros i x p Hi Hp HK. unfold xs0, batch2_threads in *. rewrite list_lookup_fmap in Hi. rewrite list_lookup_fmap in Hp.
      destruct (seq 0 (cp_workers C) !! i) as [j|] eqn:Ei; [|done]. cbn in Hi, Hp. injection Hi as <-. injection Hp as <-.
      by apply (pwp_worker2 C Hmax Hdeg).
  Qed.

  (** A call that has got to any point. *)
  Definition cut_inv (s : st) : Prop := exists xs os b, pW0 (pg_ph <$> xs) (pview s) os b.
  Lemma PInv_cut s : PInv s -> cut_inv s.
  Proof using. intros (os & b & HW). by exists [], os, b. Qed.

  Lemma cut_par s c s' :
    SInv s -> PInv s -> (cnt s + N.of_nat (length (submitted c)) < 2 ^ 64)%N -> call_fed c -> call_cut C s c s' -> cut_inv s'.
  Proof using Hmax Hdeg.
    intros [Hf Hch Hk] HP Hm Hfed Hr. inversion Hr as [|io level o s1 ts Hx|io ol os s1 ts Hp Hx|io ol os s1 ts Hp Hx|io id f s1 ts Hlk Hx]; subst; cbn [submitted] in Hm; rewrite ?fmap_length in Hm.
    - by apply PInv_cut.
    - by eapply insert_par.
    - apply batch_prepare_val in Hp as (Hcl & _ & Hemb & Hlen). destruct Hfed as (F1 & F2 & _). cbn in F1, F2.
      eapply (batch_par (zip os ol.*2)); [done|done| | |exact Hx]; [|apply fed_zip; [by apply F2|done]].
      rewrite zip_with_length, fmap_length, Hlen, fmap_length. lia.
    - apply batch_prepare_val in Hp as (Hcl & _ & Hemb & Hlen). destruct Hfed as (F1 & F2 & _). cbn in F1, F2.
      eapply (batch2_par (zip os ol.*2)); [done| | |exact Hx]; [|apply fed_zip; [by apply F2|done]].
      rewrite zip_with_length, fmap_length, Hlen, fmap_length. lia.
    - eapply delete_par; [..|exact Hx]; try done. apply Hfed.
  Qed.

  Lemma run_par s c s' r :
    SInv s -> PInv s -> (cnt s + N.of_nat (length (submitted c)) < 2 ^ 64)%N -> call_fed c -> call_run C s c s' r -> PInv s'.
  Proof using Hmax Hdeg.
    intros [Hf Hch Hk] HP Hm Hfed Hr. inversion Hr as [io level o s1 r1 Hx|io ol r1 Hp Hn|io ol os s1 r1 rs Hp Hb|io ol r1 Hp Hn|io ol os s1 r1 rs Hp Hb|io id f s1 r1 Hlk Hx|ids s1 r1 Hx|o k s1 r1 Hx|s1 r1 Hx|o s1 r1 Hx|s1 r1 Hx]; subst; cbn [submitted] in Hm; rewrite ?fmap_length in Hm; try done.
    - apply exec_rtc in Hx. by eapply insert_par.
    - apply batch_prepare_val in Hp as (Hcl & _ & Hemb & Hlen). destruct Hfed as (F1 & F2 & _). cbn in F1, F2.
      assert (Hmain : forall s1 rs, rtc mstep (s, batch_threads C (zip os ol.*2)) (s1, Done <$> rs) -> PInv s1).
      { intros s2 rs2 H2. eapply (batch_par (zip os ol.*2)); [done|done| | |exact H2|done]; [|apply fed_zip; [by apply F2|done]].
        rewrite zip_with_length, fmap_length, Hlen, fmap_length. lia. }
      inversion Hb as [s2 rs2 s3 r3 H2 Hg Hfl|s2 rs2 e H2 Hg]; subst; [|by eapply Hmain].
      eapply PInv_same; [|by eapply Hmain]. pose proof (flush_view C Hmax Hdeg io s2) as Ev. by rewrite Hfl in Ev.
    - apply batch_prepare_val in Hp as (Hcl & _ & Hemb & Hlen). destruct Hfed as (F1 & F2 & _). cbn in F1, F2. apply PInv_chan; [constructor|].
      assert (Hmain : forall s1 rs, rtc mstep (set_chan (zip os ol.*2) s, batch2_threads C (zip os ol.*2)) (s1, Done <$> rs) -> PInv s1).
      { intros s2 rs2 H2. eapply (batch2_par (zip os ol.*2)); [done| | |exact H2|done]; [|apply fed_zip; [by apply F2|done]].
        rewrite zip_with_length, fmap_length, Hlen, fmap_length. lia. }
      inversion Hb as [s2 rs2 s3 r3 H2 Hg Hfl|s2 rs2 e H2 Hg]; subst; [|by eapply Hmain].
      eapply PInv_same; [|by eapply Hmain]. pose proof (flush_view C Hmax Hdeg io s2) as Ev. by rewrite Hfl in Ev.
    - apply exec_rtc in Hx. eapply delete_par; [..|exact Hx|]; try done. apply Hfed.
    - unfold CollModel.get in Hx. rewrite exec_act in Hx. by apply Some_pair_inj in Hx as [<- _].
    - by eapply search_par.
    - unfold get_size in Hx. rewrite exec_act in Hx. by apply Some_pair_inj in Hx as [<- _].
    - unfold CollModel.update, check_open in Hx. rewrite exec_act in Hx. by apply Some_pair_inj in Hx as [<- _].
    - unfold CollModel.close in Hx. rewrite exec_act in Hx. destruct (closed s); by apply Some_pair_inj in Hx as [<- _].
  Qed.
End hist.

(** ** Reopening *)
Lemma wop_apply_dom o s s' : wop_apply o s = Val s' -> forall id, is_Some (nodes s' !! id) <-> is_Some (nodes s !! id) \/ exists l, o = WAddVertex id l.
Proof.
  intros H id. destruct o as [i l|i l|i l ns|i l nn|i]; cbn [wop_apply] in H.
  - apply Val_inj in H as <-. cbn. destruct (decide (id = i)) as [->|Hne].
    + rewrite lookup_insert. split; [intros _; right; by eexists|by eexists].
    + rewrite lookup_insert_ne by done. split; [by left|]. intros [?|[l' [= -> _]]]; done.
  - apply Val_inj in H as <-. cbn. split; [by left|]. by intros [?|[l' ?]].
  - destruct (nodes s !! i) as [v|] eqn:Ev; [|done]. case_decide; [|done]. apply Val_inj in H as <-. cbn. destruct (decide (id = i)) as [->|Hne].
    + rewrite lookup_insert, Ev. split; [intros _; left; by eexists|by eexists].
    + rewrite lookup_insert_ne by done. split; [by left|]. by intros [?|[l' ?]].
  - destruct (nodes s !! i) as [v|] eqn:Ev; [|done]. case_decide; [|done]. apply Val_inj in H as <-. cbn. destruct (decide (id = i)) as [->|Hne].
    + rewrite lookup_insert, Ev. split; [intros _; left; by eexists|by eexists].
    + rewrite lookup_insert_ne by done. split; [by left|]. by intros [?|[l' ?]].
  - apply Val_inj in H as <-. cbn. split; [by left|]. by intros [?|[l' ?]].
Qed.
Lemma wops_apply_dom os s s' : wops_apply os s = Val s' ->
  forall id, is_Some (nodes s' !! id) <-> is_Some (nodes s !! id) \/ exists l, WAddVertex id l ∈ os.
Proof.
  revert s. induction os as [|o os IH]; intros s; cbn [wops_apply].
  - intros <-%Val_inj id. split; [by left|]. intros [?|[l Hl]]; [done|by apply elem_of_nil in Hl].
  - destruct (wop_apply o s) as [s1| |] eqn:E; cbn [mbind out_bind]; [|done..]. intros H id. rewrite (IH _ H id), (wop_apply_dom _ _ _ E id).
    split.
    + intros [[?|[l ->]]|[l Hl]]; [by left|right; exists l; by left|right; exists l; by right].
    + intros [?|[l Hl]]; [by left; left|]. apply elem_of_cons in Hl as [Hl|Hl]; [left; right; by exists l|right; by exists l].
Qed.
(** Replayed operations only look at the index. *)
Lemma wop_apply_ids o s s' : wop_ok o -> wop_apply o s = Val s' ->
  (forall n v, nodes s !! n = Some v -> id_ok n /\ Forall (Forall id_ok) (v_conns v)) ->
  (forall n v, nodes s' !! n = Some v -> id_ok n /\ Forall (Forall id_ok) (v_conns v)).
Proof.
  intros Hok H HJ n v Hn. destruct o as [i l|i l|i l ns|i l nn|i]; cbn [wop_apply wop_ok] in *.
  - apply Val_inj in H as <-. cbn in Hn. destruct (decide (n = i)) as [->|Hne]; [|rewrite lookup_insert_ne in Hn by done; eauto].
    rewrite lookup_insert in Hn. injection Hn as <-. split; [apply Hok|]. cbn. constructor; [constructor|]. by apply Forall_replicate.
  - apply Val_inj in H as <-. eauto.
  - destruct (nodes s !! i) as [w|] eqn:Ew; [|done]. case_decide; [|done]. apply Val_inj in H as <-. cbn in Hn.
    destruct (decide (n = i)) as [->|Hne]; [|rewrite lookup_insert_ne in Hn by done; eauto].
    rewrite lookup_insert in Hn. injection Hn as <-. split; [apply Hok|]. cbn. apply Forall_insert; [by eapply HJ|]. apply Hok.
  - destruct (nodes s !! i) as [w|] eqn:Ew; [|done]. case_decide; [|done]. apply Val_inj in H as <-. cbn in Hn.
    destruct (decide (n = i)) as [->|Hne]; [|rewrite lookup_insert_ne in Hn by done; eauto].
    rewrite lookup_insert in Hn. injection Hn as <-. split; [apply Hok|]. cbn. apply Forall_insert; [by eapply HJ|].
    apply Forall_app. split; [|repeat constructor; apply Hok]. destruct (HJ _ _ Ew) as [_ Hc].
    destruct (lookup_lt_is_Some_2 (v_conns w) l ltac:(done)) as [cs Hcs]. rewrite (list_lookup_total_correct _ _ _ Hcs). rewrite Forall_lookup in Hc. by eapply Hc.
  - apply Val_inj in H as <-. eauto.
Qed.
Lemma wops_apply_ids os s s' : Forall wop_ok os -> wops_apply os s = Val s' ->
  (forall n v, nodes s !! n = Some v -> id_ok n /\ Forall (Forall id_ok) (v_conns v)) ->
  (forall n v, nodes s' !! n = Some v -> id_ok n /\ Forall (Forall id_ok) (v_conns v)).
Proof.
  intros Hok. revert s. induction Hok as [|o os Ho _ IH]; intros s; cbn [wops_apply]; [by intros <-%Val_inj|].
  destruct (wop_apply o s) as [s1| |] eqn:E; cbn [mbind out_bind]; [|done..]. intros H HJ. eapply (IH s1); [done|]. by eapply wop_apply_ids.
Qed.
Definition idx_eq (s s' : st) : Prop := nodes s' = nodes s /\ ep s' = ep s /\ maxl s' = maxl s /\ deleted s' = deleted s.
Lemma wop_apply_ext o s s' b : idx_eq s s' -> wop_apply o s = Val b -> exists b', wop_apply o s' = Val b' /\ idx_eq b b' /\ once b' = once s'.
Proof.
  intros (E1 & E2 & E3 & E4) H. destruct o as [i l|i l|i l ns|i l nn|i]; cbn [wop_apply] in *; rewrite ?E1.
  - apply Val_inj in H as <-. eexists. split; [done|]. by repeat split.
  - apply Val_inj in H as <-. eexists. split; [done|]. by repeat split.
  - destruct (nodes s !! i) as [v|]; [|done]. case_decide; [|done]. apply Val_inj in H as <-. eexists. split; [done|]. by repeat split.
  - destruct (nodes s !! i) as [v|]; [|done]. case_decide; [|done]. apply Val_inj in H as <-. eexists. split; [done|]. by repeat split.
  - apply Val_inj in H as <-. eexists. split; [done|]. split; [|done]. repeat split; cbn; congruence.
Qed.
Lemma wops_apply_ext os s s' b : idx_eq s s' -> wops_apply os s = Val b -> exists b', wops_apply os s' = Val b' /\ idx_eq b b' /\ once b' = once s'.
Proof.
  revert s s'. induction os as [|o os IH]; intros s s' He; cbn [wops_apply]; [intros <-%Val_inj; by exists s'|].
  destruct (wop_apply o s) as [s1| |] eqn:E; cbn [mbind out_bind]; [|done..]. intros H.
  destruct (wop_apply_ext _ _ _ _ He E) as (s1' & E' & He' & Ho). rewrite E'. cbn [mbind out_bind].
  destruct (IH _ _ He' H) as (b' & Hb' & He2 & Ho2). exists b'. split_and!; [done..|congruence].
Qed.

(** What the vertices become when their vectors are loaded. *)
Definition loaded (m : gmap bytes bytes) (id : N) (v : vertex) : vertex :=
  Vertex (v_conns v) (match get_vector m id with Val (Some x) => x | _ => [] end) (v_lock v).
Definition loaded_all (m : gmap bytes bytes) (ns : gmap N vertex) : gmap N vertex := map_imap (fun id v => Some (loaded m id v)) ns.
Lemma loaded_lookup m ns id : loaded_all m ns !! id = loaded m id <$> ns !! id.
Proof. unfold loaded_all. rewrite map_lookup_imap. by destruct (ns !! id). Qed.

Lemma stored_vec_get m id vec : stored_vec m id vec -> get_vector m id = Val (Some vec).
Proof.
  intros (b & Hb & Hser & Hok). unfold get_vector. rewrite Hb. pose proof (de_ser_vec vec [] b Hok Hser) as Ed. rewrite app_nil_r in Ed. by rewrite Ed.
Qed.
Lemma populate_keys m kvs s s' : CollModel.populate m kvs s = Val s' -> forall k x, (k, x) ∈ kvs -> exists id, le_get 8 k = Some id /\ is_Some (nodes s !! id).
Proof.
  revert s. induction kvs as [|[k0 x0] kvs IH]; intros s; cbn [CollModel.populate]; [intros _ k x H; by apply elem_of_nil in H|].
  destruct (le_get 8 k0) as [id|] eqn:Ek; [|done]. cbn [or_pan mbind out_bind]. destruct (get_vector m id) as [ov|e|z]; [|done..]. cbn [mbind out_bind].
  destruct (nodes s !! id) as [v|] eqn:Ev; [|done]. intros H k x Hin. apply elem_of_cons in Hin as [Heq|Hin].
  - injection Heq as -> ->. exists id. split; [done|]. rewrite Ev. by eexists.
  - destruct (IH _ H k x Hin) as (id' & Hk' & Hid'). exists id'. split; [done|]. cbn in Hid'. destruct (decide (id' = id)) as [->|Hne]; [rewrite Ev; by eexists|].
    by rewrite lookup_insert_ne in Hid'.
Qed.

(** The state of the disk when some prefix of the records has been written. *)
Section reopen.
  Context (ps : list phase) (s : st) (os : list wop) (b : st) (HW : pW0 ps (pview s) os b).
  Context (d : disk) (log2 : list bytes) (Hlog : log_view s = d_log d ++ log2) (Hvecs : d_vecs d = vecs s) (Hcf : open_counter (d_cfile d) = Val (cnt s)).

  (** What the records on disk rebuild. *)
  Lemma prefix_replay : exists os1 os2 b1, os = os1 ++ os2 /\ Forall wop_ok os1 /\
    Forall2 (fun o r => enc_wop o = Val r) os1 (d_log d) /\ wops_apply os1 empty_st = Val b1 /\ wops_apply os2 b1 = Val b.
  Proof using HW Hlog.
    pose proof (pw_enc _ _ _ _ HW) as He. cbn in He. rewrite Hlog in He. apply Forall2_app_inv_r in He as (os1 & os2 & H1 & H2 & ->).
    pose proof (pw_ok _ _ _ _ HW) as Hok. apply Forall_app in Hok as [Hok1 Hok2]. pose proof (pw_app _ _ _ _ HW) as Ha. rewrite wops_apply_app in Ha.
    destruct (wops_apply os1 empty_st) as [b1| |] eqn:E1; [|done..]. by exists os1, os2, b1.
  Qed.

  Lemma stored_of_b id : is_Some (nodes b !! id) -> (id < cnt s)%N /\ exists vec, stored_vec (vecs s) id vec.
  Proof using HW.
    intros H. destruct (pw_dom _ _ _ _ HW id H) as [Hn|(i & vec & l & Hi)].
    - split; [by apply (pw_ids _ _ _ _ HW)|]. destruct Hn as [[cs vec] Hn]. exists vec. by apply (pw_vec _ _ _ _ HW id cs).
    - split; [by apply (pw_own _ _ _ _ HW i _ _ Hi)|]. exists vec. by apply (pw_logd _ _ _ _ HW i id vec l).
  Qed.

  Lemma reopen_prefix b1 os1 os2 :
    Forall wop_ok os1 -> Forall2 (fun o r => enc_wop o = Val r) os1 (d_log d) -> wops_apply os1 empty_st = Val b1 -> wops_apply os2 b1 = Val b ->
    (forall id, is_Some (vecs s !! id_key id) -> (id < cnt s)%N -> is_Some (nodes b1 !! id)) ->
    exists s', reopen d = Val s' /\ nodes s' = loaded_all (vecs s) (nodes b1) /\ ep s' = ep b1 /\ maxl s' = maxl b1 /\ deleted s' = deleted b1.
  Proof using HW Hlog Hvecs Hcf.
    intros Hok Henc Hb1 Hb2 Hcov. unfold reopen. rewrite Hcf. cbn [mbind out_bind].
    match goal with |- context [replay _ ?x] => set (s0 := x) end.
    rewrite (replay_wops os1 (d_log d) s0 Hok Henc).
    destruct (wops_apply_ext os1 empty_st s0 b1) as (b0 & Hb0 & (E1 & E2 & E3 & E4) & Ho); [by repeat split|done|]. rewrite Hb0. cbn [mbind out_bind].
    assert (Hpl : plain b1) by (by eapply wops_plain; [|exact Hb1]). rewrite Hvecs.
    assert (Hs : forall id, is_Some (nodes b1 !! id) -> (id < 2 ^ 64)%N /\ exists vec, stored_vec (vecs s) id vec).
    { intros id H. destruct (stored_of_b id) as [Hlt Hst].
      - apply (wops_apply_dom _ _ _ Hb2). by left.
      - split; [|done]. pose proof (pw_cnt _ _ _ _ HW) as Hc. cbn in Hc. lia. }
    destruct (populate_target (vecs s) (map_to_list (vecs s)) b0 (loaded_all (vecs s) (nodes b1))) as (s' & Hp & F1 & F2 & F3 & F4 & F5).
    - intros id. rewrite loaded_lookup, E1. by destruct (nodes b1 !! id).
    - intros k x Hin. apply elem_of_map_to_list in Hin. destruct (pw_key _ _ _ _ HW k) as (id & -> & Hlt & _); [cbn; by eexists|]. cbn in Hlt.
      destruct (Hcov id) as [v Hv]; [by eexists|done|]. destruct (Hs id) as (H64 & vec & Hst); [by eexists|].
      exists id, (loaded (vecs s) id v). split_and!.
      + unfold id_key. apply le_get_put. by rewrite pow256_8.
      + by rewrite loaded_lookup, Hv.
      + cbn. by rewrite (stored_vec_get _ _ _ Hst).
    - intros id v v1 Hv Hv1. right. rewrite E1 in Hv1. destruct (Hs id) as (H64 & vec & x & Hx & _); [by eexists|].
      exists (id_key id), x. split; [by apply elem_of_map_to_list|]. unfold id_key. apply le_get_put. by rewrite pow256_8.
    - exists s'. split_and!; try done; congruence.
  Qed.

  (** Reopening succeeds exactly when every stored vector has its vertex record on disk. *)
  Lemma reopen_cover b1 os1 os2 s' :
    Forall wop_ok os1 -> Forall2 (fun o r => enc_wop o = Val r) os1 (d_log d) -> wops_apply os1 empty_st = Val b1 -> wops_apply os2 b1 = Val b ->
    reopen d = Val s' -> forall id, is_Some (vecs s !! id_key id) -> (id < cnt s)%N -> is_Some (nodes b1 !! id).
  Proof using HW Hlog Hvecs Hcf.
    intros Hok Henc Hb1 Hb2. unfold reopen. rewrite Hcf. cbn [mbind out_bind].
    match goal with |- context [replay _ ?x] => set (s0 := x) end.
    rewrite (replay_wops os1 (d_log d) s0 Hok Henc).
    destruct (wops_apply_ext os1 empty_st s0 b1) as (b0 & Hb0 & (E1 & E2 & E3 & E4) & Ho); [by repeat split|done|]. rewrite Hb0. cbn [mbind out_bind].
    rewrite Hvecs. intros Hp id [x Hx] Hlt. destruct (populate_keys _ _ _ _ Hp (id_key id) x) as (id' & Hk & Hn); [by apply elem_of_map_to_list|].
    pose proof (pw_cnt _ _ _ _ HW) as Hc. cbn in Hc. unfold id_key in Hk. rewrite le_get_put in Hk by (rewrite pow256_8; lia). injection Hk as <-.
    by rewrite <- E1.
  Qed.

  Lemma reopen_inv s' : reopen d = Val s' -> PInv s'.
  Proof using HW Hlog Hvecs Hcf.
    intros Hr. destruct prefix_replay as (os1 & os2 & b1 & Eos & Hok & Henc & Hb1 & Hb2).
    pose proof (reopen_cover b1 os1 os2 s' Hok Henc Hb1 Hb2 Hr) as Hcov.
    destruct (reopen_prefix b1 os1 os2 Hok Henc Hb1 Hb2 Hcov) as (s2 & Hr2 & E1 & E2 & E3 & E4). rewrite Hr in Hr2. apply Val_inj in Hr2 as <-.
    destruct (reopen_store _ _ Hr) as (R1&R2&R3&R4&R5&R6&R7&R8&R9).
    assert (Ec : cnt s' = cnt s) by (rewrite R2, Hcf in R1; by apply Val_inj in R1).
    assert (Hdom : forall id, is_Some (nodes b1 !! id) -> (id < cnt s)%N /\ exists vec, stored_vec (vecs s) id vec).
    { intros id H. apply stored_of_b. apply (wops_apply_dom _ _ _ Hb2). by left. }
    assert (Hlk : forall id cs vec, p_n (pview s') !! id = Some (cs, vec) -> exists w, nodes b1 !! id = Some w /\ v_conns w = cs /\ stored_vec (vecs s) id vec).
    { intros id cs vec. cbn. rewrite lookup_fmap, E1, loaded_lookup. destruct (nodes b1 !! id) as [w|] eqn:Ew; [|done]. cbn. intros [= <- <-].
      exists w. split_and!; [done..|]. destruct (Hdom id) as (_ & vec & Hst); [by eexists|]. by rewrite (stored_vec_get _ _ _ Hst). }
    exists os1, b1. split; try done.
    - cbn. unfold log_view. by rewrite R7, R8, app_nil_r.
    - intros id cs vec H. destruct (Hlk _ _ _ H) as (w & Hw & <- & _). by exists w.
    - intros id [w Hw]. left. cbn. rewrite lookup_fmap, E1, loaded_lookup, Hw. by eexists.
    - split; [|cbn; rewrite R5; constructor]. intros n cs vec H. destruct (Hlk _ _ _ H) as (w & Hw & <- & _).
      eapply (wops_apply_ids _ _ _ Hok Hb1); [|exact Hw]. done.
    - intros id cs vec H. cbn [pview p_vecs]. rewrite R4, Hvecs. by destruct (Hlk _ _ _ H) as (w & Hw & _ & Hst).
    - intros k H. cbn [pview p_vecs p_cnt] in *. rewrite R4, Hvecs in H. rewrite Ec. destruct (pw_key _ _ _ _ HW k H) as (id & -> & Hlt & _).
      exists id. split_and!; [done..|]. left. by apply Hcov.
    - intros id [[cs vec] H]. cbn [pview p_cnt]. rewrite Ec. destruct (Hlk _ _ _ H) as (w & Hw & _). apply Hdom. by eexists.
    - cbn [pview p_cnt]. rewrite Ec. apply (pw_cnt _ _ _ _ HW).
  Qed.
End reopen.

(** ** Along histories *)
Section hist2.
  Context (C : cparams).
  Notation P := (cp_h C).
  Context (Hmax : (cp_maxval C < 2 ^ 32)%N).
  Context (Hdeg : (N.of_nat (Nat.max (hp_m P) (2 * hp_mMax P)) < 2 ^ 32)%N).

  Lemma torn_log n s : log_view s = d_log (disk_of (wal_flush_torn n s)) ++ drop n (snd <$> batch s).
  Proof using. unfold log_view. cbn. by rewrite <- app_assoc, take_drop. Qed.

  Lemma ev_par s e s' :
    SInv s -> PInv s -> (cnt s + N.of_nat (ev_inserts e) < 2 ^ 64)%N -> ev_fed C e -> ev_step C s e s' -> PInv s'.
  Proof using Hmax Hdeg.
    intros HI HP Hc Hf Hs. inversion Hs as [c s1 r Hr|s1 Hr|c n s1 s2 Hcut Hr]; subst.
    - by eapply (run_par C Hmax Hdeg).
    - destruct HP as (os & b & HW). eapply (reopen_inv [] s os b HW (disk_of s) (snd <$> batch s)); try done. apply (si_file _ HI).
    - pose proof (cut_par C Hmax Hdeg _ _ _ HI HP Hc Hf Hcut) as (xs & os & b & HW).
      destruct (call_cut_store C _ _ n _ HI Hc Hcut) as (ids & _ & Hcf).
      eapply (reopen_inv _ s1 os b HW (disk_of (wal_flush_torn n s1))); try done. apply torn_log.
  Qed.

  Lemma hist_par h s :
    hist C empty_st h s -> Forall (ev_fed C) h -> (N.of_nat (hist_inserts h) < 2 ^ 64)%N -> SInv s /\ PInv s /\ (cnt s <= N.of_nat (hist_inserts h))%N.
  Proof using Hmax Hdeg.
    intros Hh. induction Hh as [|h e s1 s2 Hh IH Hs]; intros Hf Hn.
    { split_and!; [apply SInv_empty|apply PInv_empty|done]. }
    apply Forall_app in Hf as [Hf He]. apply Forall_cons in He as [He _]. rewrite hist_inserts_snoc in Hn |- *.
    destruct IH as (HI & HP & Hc); [done|lia|].
    destruct (ev_step_store C s1 e s2 HI ltac:(lia) Hs) as (HI2 & ids & Hw). pose proof (ew_cnt _ _ _ _ _ Hw).
    split_and!; [done| |lia]. eapply (ev_par s1 e s2); try done. lia.
  Qed.
End hist2.
