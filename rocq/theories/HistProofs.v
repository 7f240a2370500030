(** The counter and the stores along a whole history. *)
From stdpp Require Import relations sorting.
From Verif Require Import GoBase FloatModel HeapModel ProgModel StateModel WalModel HnswModel StoreModel CollModel CallModel
  ProofBase CodecProofs CodecSpec LogProofs WpProofs StepProofs StoreProofs CallProofs.
Open Scope nat_scope.
Local Arguments id_key _ : simpl never.
Local Arguments le_put _ _ : simpl never.

Lemma assign_vecs_length os er os' : assign_vecs os er = Val os' -> length os' = length os.
Proof.
  revert er os'. induction os as [|o os IH]; intros er os'; cbn [assign_vecs].
  - by intros <-%Val_inj.
  - destruct (needs_vec o).
    + destruct er as [|v er]; [done|]. destruct (assign_vecs os er) as [l|e|z] eqn:E; [|done..].
      intros <-%Val_inj. cbn. f_equal. by eapply IH.
    + destruct (assign_vecs os er) as [l|e|z] eqn:E; [|done..]. intros <-%Val_inj. cbn. f_equal. by eapply IH.
Qed.
Lemma embed_length C os os' : embed_objects C os = Val os' -> length os' = length os.
Proof.
  unfold embed_objects. destruct (cp_embed C) as [E|].
  - destruct (E _) as [er|]; [|done]. apply assign_vecs_length.
  - destruct (existsb _ _); [done|]. by intros <-%Val_inj.
Qed.
Lemma batch_prepare_val C s os os' :
  batch_prepare C s os = Val os' ->
  closed s = false /\ validate_objects C 0 os = Val tt /\ embed_objects C os = Val os' /\ length os' = length os.
Proof.
  unfold batch_prepare. destruct (closed s); [done|]. destruct (validate_objects C 0 os) as [[]|e|z] eqn:Ev; [|done..].
  cbn. intros He. split_and!; try done. by eapply embed_length.
Qed.

(** What holds of counter and stores between two events. *)
Record SInv (s : st) : Prop := MkSInv {
  si_file : open_counter (cfile s) = Val (cnt s);
  si_chan : chan s = [];
  si_keys : forall k, is_Some (objs s !! k) \/ is_Some (vecs s !! k) -> exists id, k = id_key id /\ (id < cnt s)%N
}.
Lemma SInv_empty : SInv empty_st.
Proof. split; [done|done|]. intros k [[x Hx]|[x Hx]]; done. Qed.

(** The vectors an event inserts are within the store's limit, and it is not a
    crash in the middle of an insert. *)
Definition ev_fits (C : cparams) (e : event) : Prop :=
  match e with
  | EvCall c _ => forall os, embed_objects C (submitted c) = Val os -> Forall (fits C) os
  | EvCrash c _ => submitted c = []
  | EvRestart => True
  end.

(** What one event does. *)
Record ev_wrote (C : cparams) (e : event) (ids : list N) (s s' : st) : Prop := EvWrote {
  ew_nodup : NoDup ids;
  ew_range : forall id, id ∈ ids -> (cnt s <= id < cnt s')%N;
  ew_cnt : (cnt s <= cnt s' <= cnt s + N.of_nat (ev_inserts e))%N;
  ew_vecs : forall k, (forall id, id ∈ ids -> k <> id_key id) -> vecs s' !! k = vecs s !! k;
  ew_objs : forall k, (forall id, id ∈ ids -> k <> id_key id) ->
    objs s' !! k = objs s !! k \/ objs s' !! k = None /\ exists id, k = id_key id /\ ev_deletes id e = true;
  ew_acked : Forall (fun o => o_id o ∈ ids /\ stored C s' o) (acked e);
  ew_src : acked e = [] \/ exists c r os, e = EvCall c r /\ embed_objects C (submitted c) = Val os /\
    Forall (fun o => payload o ∈ payload <$> os) (acked e);
  ew_once : NoDup (o_id <$> acked e);
  ew_del : forall io id, e = EvCall (CDelete io id) (RUnit (Val tt)) -> objs s' !! id_key id = None \/ vecs s' !! id_key id = None;
  ew_pair : ev_fits C e -> paired s s'
}.

Section hist.
  Context (C : cparams).

  Lemma wrote_ev e n ids s s' :
    wrote n ids s s' -> n <= ev_inserts e ->
    Forall (fun o => o_id o ∈ ids /\ stored C s' o) (acked e) -> NoDup (o_id <$> acked e) ->
    (acked e = [] \/ exists c r os, e = EvCall c r /\ embed_objects C (submitted c) = Val os /\
      Forall (fun o => payload o ∈ payload <$> os) (acked e)) ->
    (forall io id r, e <> EvCall (CDelete io id) r) ->
    (ev_fits C e -> paired s s') ->
    ev_wrote C e ids s s'.
  Proof.
    intros [H1 H2 H3 H4 H5 H6] Hn Ha Hd Hs Hne Hpr. split; try done.
    - lia.
    - intros k Hk. by apply H6.
    - intros k Hk. left. by apply H6.
    - intros io id ->. by destruct (Hne io id (RUnit (Val tt))).
  Qed.
  Lemma same_ev e s s' :
    cnt s' = cnt s -> objs s' = objs s -> vecs s' = vecs s -> acked e = [] ->
    (forall io id r, e <> EvCall (CDelete io id) r) -> ev_wrote C e [] s s'.
  Proof.
    intros H1 H2 H3 H4 H5. split; rewrite ?H4.
    - constructor.
    - intros i Hi. by apply elem_of_nil in Hi.
    - lia.
    - intros k _. by rewrite H3.
    - intros k _. left. by rewrite H2.
    - constructor.
    - by left.
    - constructor.
    - intros io id ->. by destruct (H5 io id (RUnit (Val tt))).
    - intros _. split; intros k; rewrite ?H2, ?H3; [by left|done].
  Qed.
  Lemma del_ev e id s s' :
    del_rel id s s' -> acked e = [] -> ev_deletes (u64 id) e = true ->
    (forall io id', e = EvCall (CDelete io id') (RUnit (Val tt)) -> objs s' !! id_key id' = None \/ vecs s' !! id_key id' = None) ->
    ev_wrote C e [] s s'.
  Proof.
    intros (D1&D2&D3&D4&D5&D6) Ha Hd Hn. split; rewrite ?Ha.
    - constructor.
    - intros i Hi. by apply elem_of_nil in Hi.
    - lia.
    - intros k _. by rewrite D5.
    - intros k _. destruct (D6 k) as [H|[H ->]]; [by left|right]. split; [done|]. exists (u64 id). by rewrite id_key_u64.
    - constructor.
    - by left.
    - constructor.
    - done.
    - intros _. split; intros k; rewrite ?D5; [|done]. destruct (D6 k) as [->|[-> _]]; [by left|by intros [? ?]].
  Qed.

  Lemma wrote_nil ids s s' : wrote 0 ids s s' -> paired s s'.
  Proof.
    intros [H1 H2 H3 H4 H5 H6].
    assert (ids = []) as ->.
    { destruct ids as [|i l]; [done|]. specialize (H4 i ltac:(set_solver)). lia. }
    split; intros k Hk; destruct (H6 k) as [E1 E2]; try set_solver; rewrite ?E1, ?E2 in *; auto.
  Qed.
  Lemma stored_ext s s' o : objs s' = objs s -> vecs s' = vecs s -> stored C s o -> stored C s' o.
  Proof. intros E1 E2 (ob & vb & H). exists ob, vb. by rewrite E1, E2. Qed.

  (** The summary of an event before a possible reopening. *)
  Lemma call_run_store s c s' r :
    SInv s -> (cnt s + N.of_nat (ev_inserts (EvCall c r)) < 2 ^ 64)%N -> call_run C s c s' r ->
    exists ids, ev_wrote C (EvCall c r) ids s s' /\ open_counter (cfile s') = Val (cnt s') /\ chan s' = [].
  Proof.
    intros [Hf Hch Hk] Hm Hr. inversion Hr as [io level o s1 r1 Hx|io ol r1 Hp Hn|io ol os s1 r1 rs Hp Hb|io ol r1 Hp Hn|io ol os s1 r1 rs Hp Hb|io id f s1 r1 Hlk Hx|ids s1 r1 Hx|o k s1 r1 Hx|s1 r1 Hx|o s1 r1 Hx|s1 r1 Hx]; subst; cbn [ev_inserts submitted] in Hm; rewrite ?fmap_length in Hm.
    - apply exec_rtc in Hx. destruct (insert_reach C _ _ _ _ _ _ _ Hf Hch Hm Hx) as (Hch' & ids & Hw & Hres & Hpr).
      exists ids. split; [|split; [apply Hw|done]]. eapply wrote_ev; [exact Hw|done| | | |done|by apply (Hpr r1)].
      + cbn. destruct r1 as [o'|e|z]; [|constructor..]. destruct (Hres o' eq_refl) as (H1 & H2 & _). by repeat constructor.
      + cbn. destruct r1 as [o'|e|z]; [|constructor..]. apply NoDup_singleton.
      + destruct r1 as [o'|e|z]; [right|by left..]. destruct (Hres o' eq_refl) as (_ & _ & o1 & He & Hpy).
        exists (CInsert io level o), (RIns (Val o')), [o1]. split_and!; [done|done|]. cbn [acked]. constructor; [|constructor].
        rewrite Hpy. cbn. by left.
    - exists []. split; [|done]. apply same_ev; try done. cbn. destruct (batch_prepare C s' ol.*1) as [os|e|z]; [|done..]. by destruct (Hn os).
    - apply batch_prepare_val in Hp as (Hcl & _ & Hemb & Hlen).
      assert (Hzip : length (zip os ol.*2) = length ol).
      { rewrite zip_with_length, fmap_length, Hlen, fmap_length. lia. }
      assert (Hfst : (zip os ol.*2).*1 = os) by (apply fst_zip; rewrite fmap_length, Hlen, fmap_length; done).
      assert (Hmain : forall s1 rs, rtc mstep (s, batch_threads C (zip os ol.*2)) (s1, Done <$> rs) ->
        chan s1 = [] /\ exists ids, wrote (length ol) ids s s1 /\ batch_done C s ((zip os ol.*2).*1) rs ids s1).
      { intros s2 rs2 H2. destruct (batch_reach C (zip os ol.*2) s s2 _ Hcl Hf Hch ltac:(by rewrite Hzip) H2) as (? & ids & Hw & Hd).
        split; [done|]. exists ids. rewrite Hzip in Hw. split; [done|]. by apply Hd. }
      inversion Hb as [s2 rs2 s3 r3 H2 Hg Hfl|s2 rs2 e H2 Hg]; subst.
      + destruct (Hmain _ _ H2) as (Hch2 & ids & Hw & Hd1 & Hd2 & Hd3 & _ & Hpr). rewrite Hfst in Hpr.
        destruct (flush_store io s2) as (F1&F2&F3&F4&F5&F6). rewrite Hfl in F1,F2,F3,F4,F5,F6. cbn [fst] in *.
        exists ids. split; [|split; [by rewrite F5, F4; apply Hw|congruence]].
        eapply (wrote_ev _ (length ol)); [|cbn; by rewrite fmap_length| | | |done|].
        5:{ intros Hfit. destruct (Hpr (Hfit os Hemb)) as [Pr1 Pr2]. split; intros k; cbn; rewrite ?F2, ?F3; [apply Pr1|apply Pr2]. }
        * destruct Hw as [W1 W2 W3 W4 W5 W6]. split; rewrite ?F1, ?F4, ?F5; try done.
          intros k Hk0. destruct (W6 k Hk0). split; congruence.
        * cbn. destruct r1 as [[]|e|z]; [|constructor..]. eapply Forall_impl; [exact Hd2|]. intros o [Ho1 Ho2]. split; [done|].
          by eapply stored_ext.
        * cbn. destruct r1 as [[]|e|z]; [done|constructor..].
        * destruct r1 as [[]|e|z]; [right|by left..]. eexists _, _, os. split_and!; [done|exact Hemb|]. cbn [acked].
          by rewrite fst_zip in Hd3 by (rewrite fmap_length, Hlen, fmap_length; done).
      + destruct (Hmain _ _ H2) as (Hch2 & ids & Hw & _ & _ & _ & _ & Hpr). rewrite Hfst in Hpr. exists ids. split; [|split; [apply Hw|done]].
        eapply wrote_ev; [exact Hw|cbn; rewrite ?fmap_length; lia|constructor|constructor|by left|done|]. intros Hfit. by apply Hpr, (Hfit os).
    - exists []. split; [|done]. apply same_ev; try done. cbn. destruct (batch_prepare C s' ol.*1) as [os|e|z]; [|done..]. by destruct (Hn os).
    - apply batch_prepare_val in Hp as (Hcl & _ & Hemb & Hlen).
      assert (Hzip : length (zip os ol.*2) = length ol).
      { rewrite zip_with_length, fmap_length, Hlen, fmap_length. lia. }
      assert (Hfst : (zip os ol.*2).*1 = os) by (apply fst_zip; rewrite fmap_length, Hlen, fmap_length; done).
      assert (Hmain : forall s1 rs, rtc mstep (set_chan (zip os ol.*2) s, batch2_threads C (zip os ol.*2)) (s1, Done <$> rs) ->
        exists ids, wrote (length ol) ids s s1 /\ batch_done C s ((zip os ol.*2).*1) rs ids s1).
      { intros s2 rs2 H2. destruct (batch2_reach C (zip os ol.*2) s s2 _ Hcl Hf ltac:(by rewrite Hzip) H2) as (ids & Hw & Hd).
        exists ids. rewrite Hzip in Hw. split; [done|]. by apply Hd. }
      inversion Hb as [s2 rs2 s3 r3 H2 Hg Hfl|s2 rs2 e H2 Hg]; subst.
      + destruct (Hmain _ _ H2) as (ids & Hw & Hd1 & Hd2 & Hd3 & _ & Hpr). rewrite Hfst in Hpr.
        destruct (flush_store io s2) as (F1&F2&F3&F4&F5&F6). rewrite Hfl in F1,F2,F3,F4,F5,F6. cbn [fst] in *.
        exists ids. split; [|split; [cbn; by rewrite F5, F4; apply Hw|done]].
        eapply (wrote_ev _ (length ol)); [|cbn; by rewrite fmap_length| | | |done|].
        5:{ intros Hfit. destruct (Hpr (Hfit os Hemb)) as [Pr1 Pr2]. split; intros k; cbn; rewrite ?F2, ?F3; [apply Pr1|apply Pr2]. }
        * destruct Hw as [W1 W2 W3 W4 W5 W6]. split; cbn; rewrite ?F1, ?F4, ?F5; try done.
          intros k Hk0. destruct (W6 k Hk0). split; cbn; congruence.
        * cbn. destruct r1 as [[]|e|z]; [|constructor..]. eapply Forall_impl; [exact Hd2|]. intros o [Ho1 Ho2]. split; [done|].
          by eapply stored_ext.
        * cbn. destruct r1 as [[]|e|z]; [done|constructor..].
        * destruct r1 as [[]|e|z]; [right|by left..]. eexists _, _, os. split_and!; [done|exact Hemb|]. cbn [acked].
          by rewrite fst_zip in Hd3 by (rewrite fmap_length, Hlen, fmap_length; done).
      + destruct (Hmain _ _ H2) as (ids & Hw & _ & _ & _ & _ & Hpr). rewrite Hfst in Hpr. exists ids. split; [|split; [apply Hw|done]].
        eapply (wrote_ev _ (length ol)); [|cbn; by rewrite fmap_length|constructor|constructor|by left|done|intros Hfit; by apply Hpr, (Hfit os)].
        destruct Hw as [W1 W2 W3 W4 W5 W6]. by split.
    - pose proof (steps_exec (del_rel id) (del_rel_refl id) (del_rel_trans id) _ _ _ _ (steps_delete f io id) Hx) as D.
      exists []. split; [|destruct D as (D1&D2&D3&_); split; congruence]. eapply del_ev; [exact D|done|cbn; by rewrite bool_decide_true by done|].
      intros io' id' [= -> -> ->]. by eapply delete_result.
    - unfold CollModel.get in Hx. rewrite exec_act in Hx. apply Some_pair_inj in Hx as [<- _]. exists []. split; [|done]. by apply same_ev.
    - assert (Hks : steps keep_store (semantic_search C 0 o k)).
      { unfold semantic_search. apply steps_bind; [by apply steps_act|intros _]. apply steps_bind; [done|]. intros [|o' [|? ?]]; [done| |done].
        apply steps_bind; [apply search_keep_store|intros es]. apply steps_bind; [by apply steps_act|intros os]. by apply steps_bind. }
      destruct (steps_exec keep_store keep_store_refl keep_store_trans _ _ _ _ Hks Hx) as (K1&K2&K3&K4&K5&K6&K7&K8).
      exists []. split; [by apply same_ev|]. split; congruence.
    - unfold get_size in Hx. rewrite exec_act in Hx. apply Some_pair_inj in Hx as [<- _]. exists []. split; [|done]. by apply same_ev.
    - unfold CollModel.update, check_open in Hx. rewrite exec_act in Hx. apply Some_pair_inj in Hx as [<- _]. exists []. split; [|done]. by apply same_ev.
    - unfold CollModel.close in Hx. rewrite exec_act in Hx. destruct (closed s); apply Some_pair_inj in Hx as [<- _]; exists []; (split; [|done]); by apply same_ev.
  Qed.

  Lemma call_cut_store s c n s' :
    SInv s -> (cnt s + N.of_nat (ev_inserts (EvCrash c n)) < 2 ^ 64)%N -> call_cut C s c s' ->
    exists ids, ev_wrote C (EvCrash c n) ids s s' /\ open_counter (cfile s') = Val (cnt s').
  Proof.
    intros [Hf Hch Hk] Hm Hr. inversion Hr as [|io level o s1 ts Hx|io ol os s1 ts Hp Hx|io ol os s1 ts Hp Hx|io id f s1 ts Hlk Hx]; subst; cbn [ev_inserts submitted] in Hm; rewrite ?fmap_length in Hm.
    - exists []. split; [|done]. by apply same_ev.
    - destruct (insert_reach C _ _ _ _ _ _ _ Hf Hch Hm Hx) as (Hch' & ids & Hw & _).
      exists ids. split; [|apply Hw]. eapply wrote_ev; [exact Hw|cbn; rewrite ?fmap_length; lia|constructor|constructor|by left|done|]. done.
    - apply batch_prepare_val in Hp as (Hcl & _ & Hemb & Hlen).
      assert (Hzip : length (zip os ol.*2) = length ol).
      { rewrite zip_with_length, fmap_length, Hlen, fmap_length. lia. }
      assert (Hfst : (zip os ol.*2).*1 = os) by (apply fst_zip; rewrite fmap_length, Hlen, fmap_length; done).
      destruct (batch_reach C (zip os ol.*2) s s' _ Hcl Hf Hch ltac:(by rewrite Hzip) Hx) as (_ & ids & Hw & _).
      exists ids. split; [|apply Hw]. eapply wrote_ev; [exact Hw|cbn; rewrite ?fmap_length; lia|constructor|constructor|by left|done|]. cbn [ev_fits submitted]. intros Hnil. destruct ol; [|done]. rewrite Hzip in Hw. by apply (wrote_nil ids).
    - apply batch_prepare_val in Hp as (Hcl & _ & Hemb & Hlen).
      assert (Hzip : length (zip os ol.*2) = length ol).
      { rewrite zip_with_length, fmap_length, Hlen, fmap_length. lia. }
      assert (Hfst : (zip os ol.*2).*1 = os) by (apply fst_zip; rewrite fmap_length, Hlen, fmap_length; done).
      destruct (batch2_reach C (zip os ol.*2) s s' _ Hcl Hf ltac:(by rewrite Hzip) Hx) as (ids & Hw & _).
      exists ids. split; [|apply Hw]. eapply wrote_ev; [exact Hw|cbn; rewrite ?fmap_length; lia|constructor|constructor|by left|done|]. cbn [ev_fits submitted]. intros Hnil. destruct ol; [|done]. rewrite Hzip in Hw. by apply (wrote_nil ids).
    - destruct (steps_rtc (del_rel id) (del_rel_refl id) (del_rel_trans id) _ _ Hx) as [D _].
      { constructor; [apply steps_delete|constructor]. }
      cbn [fst snd] in D. exists []. split; [|destruct D as (D1&D2&D3&_); congruence]. eapply del_ev; [exact D|done|cbn; by rewrite bool_decide_true by done|done].
  Qed.

  Lemma ev_step_store s e s' :
    SInv s -> (cnt s + N.of_nat (ev_inserts e) < 2 ^ 64)%N -> ev_step C s e s' ->
    SInv s' /\ exists ids, ev_wrote C e ids s s'.
  Proof.
    intros HI Hm Hs.
    assert (Hmain : chan s' = [] /\ open_counter (cfile s') = Val (cnt s') /\ exists ids, ev_wrote C e ids s s').
    { inversion Hs as [c s1 r Hr|s1 Hr|c n s1 s2 Hc Hr]; subst.
      - destruct (call_run_store _ _ _ _ HI Hm Hr) as (ids & H1 & H2 & H3). split_and!; try done. by exists ids.
      - destruct (reopen_store _ _ Hr) as (R1&R2&R3&R4&R5&R6&R7&R8&R9). cbn in *. split_and!; try done. exists [].
        apply same_ev; try done. rewrite R2 in R1. rewrite (si_file _ HI) in R1. by apply Val_inj in R1.
      - destruct (call_cut_store _ _ n _ HI Hm Hc) as (ids & [E1 E2 E3 E4 E5 E6 E7 E8 E9 E10] & Hf).
        destruct (reopen_store _ _ Hr) as (R1&R2&R3&R4&R5&R6&R7&R8&R9). cbn [disk_of d_cfile d_objs d_vecs d_log wal_flush_torn set_wal cfile objs vecs wlog] in *.
        assert (Ec : cnt s' = cnt s1) by (rewrite R2, Hf in R1; by apply Val_inj in R1).
        split_and!; try done. exists ids. split; rewrite ?Ec, ?R3, ?R4; try done; try (by left); try constructor.
        all: intros k; rewrite ?R3, ?R4; by apply E10. }
    destruct Hmain as (Hch & Hf & ids & Hw). split; [|by exists ids]. split; [done|done|].
    intros k Hk. destruct (decide (k ∈ id_key <$> ids)) as [Hin|Hni].
    - apply elem_of_list_fmap in Hin as (id & -> & Hid). exists id. split; [done|]. by apply (ew_range _ _ _ _ _ Hw).
    - assert (Hnk : forall id, id ∈ ids -> k <> id_key id).
      { intros id Hid ->. apply Hni. by apply elem_of_list_fmap_1. }
      destruct (si_keys _ HI k) as (id & -> & Hid).
      + destruct Hk as [[x Hx]|[x Hx]].
        * left. destruct (ew_objs _ _ _ _ _ Hw k Hnk) as [E|[E _]]; [rewrite <- E; by eexists|congruence].
        * right. rewrite <- (ew_vecs _ _ _ _ _ Hw k Hnk). by eexists.
      + exists id. split; [done|]. pose proof (ew_cnt _ _ _ _ _ Hw). lia.
  Qed.

  Lemma hist_inserts_app h1 h2 : hist_inserts (h1 ++ h2) = hist_inserts h1 + hist_inserts h2.
  Proof. unfold hist_inserts. rewrite fmap_app. induction (ev_inserts <$> h1) as [|x l IH]; [done|]. cbn. lia. Qed.

  Lemma hist_inserts_snoc h e : hist_inserts (h ++ [e]) = hist_inserts h + ev_inserts e.
  Proof. rewrite hist_inserts_app. unfold hist_inserts. cbn. lia. Qed.

  (** The invariant holds along every history, and the counter never runs ahead of the requests. *)
  Lemma hist_store s h s' :
    SInv s -> (cnt s + N.of_nat (hist_inserts h) < 2 ^ 64)%N -> hist C s h s' ->
    SInv s' /\ (cnt s <= cnt s' <= cnt s + N.of_nat (hist_inserts h))%N.
  Proof.
    intros HI Hm Hh. induction Hh as [|h e s1 s2 Hh IH Hs]; [split; [done|cbn; lia]|].
    rewrite hist_inserts_snoc in Hm |- *.
    destruct IH as [HI1 Hc1]; [lia|].
    destruct (ev_step_store s1 e s2 HI1 ltac:(lia) Hs) as (HI2 & ids & Hw). split; [done|].
    pose proof (ew_cnt _ _ _ _ _ Hw). lia.
  Qed.
  Lemma hist_app_inv s h1 h2 s2 : hist C s (h1 ++ h2) s2 -> exists s1, hist C s h1 s1 /\ hist C s1 h2 s2.
  Proof.
    revert s2. induction h2 as [|e h2 IH] using rev_ind; intros s2 Hh.
    - rewrite app_nil_r in Hh. exists s2. split; [done|constructor].
    - rewrite app_assoc in Hh. inversion Hh as [E|h e' s1 s3 Hh1 Hs E]; subst; [by destruct (h1 ++ h2)|].
      apply app_inj_tail in E as [-> ->]. destruct (IH _ Hh1) as (s1' & H1 & H2). exists s1'. split; [done|]. by econstructor.
  Qed.
  Lemma hist_trans s h1 s1 h2 s2 : hist C s h1 s1 -> hist C s1 h2 s2 -> hist C s (h1 ++ h2) s2.
  Proof.
    intros H1 H2. induction H2 as [|h e s3 s4 H2 IH Hs]; [by rewrite app_nil_r|]. rewrite app_assoc. by econstructor.
  Qed.

  (** All acknowledged ids of a history are new and different. *)
  Lemma hist_ids s h s' :
    SInv s -> (cnt s + N.of_nat (hist_inserts h) < 2 ^ 64)%N -> hist C s h s' ->
    NoDup (acked_ids h) /\ forall id, id ∈ acked_ids h -> (cnt s <= id < cnt s')%N.
  Proof.
    intros HI Hm Hh. induction Hh as [|h e s1 s2 Hh IH Hs]; [split; [constructor|set_solver]|].
    rewrite hist_inserts_snoc in Hm.
    destruct IH as [IH1 IH2]; [lia|]. destruct (hist_store s h s1 HI ltac:(lia) Hh) as [HI1 Hc1].
    destruct (ev_step_store s1 e s2 HI1 ltac:(lia) Hs) as (HI2 & ids & Hw).
    pose proof (ew_cnt _ _ _ _ _ Hw) as Hc. pose proof (ew_range _ _ _ _ _ Hw) as Hr.
    pose proof (ew_acked _ _ _ _ _ Hw) as Ha. rewrite Forall_forall in Ha.
    assert (E : acked_ids (h ++ [e]) = acked_ids h ++ (o_id <$> acked e)).
    { unfold acked_ids. rewrite fmap_app, mjoin_app, fmap_app. cbn. by rewrite app_nil_r. }
    rewrite E. split.
    - apply NoDup_app. split; [done|]. split; [|apply (ew_once _ _ _ _ _ Hw)].
      intros id Hid Hid'. apply elem_of_list_fmap in Hid' as (o & -> & Ho). destruct (Ha o Ho) as [Ho1 _].
      apply IH2 in Hid. apply Hr in Ho1. lia.
    - intros id Hid. apply elem_of_app in Hid as [Hid|Hid].
      + apply IH2 in Hid. lia.
      + apply elem_of_list_fmap in Hid as (o & -> & Ho). destruct (Ha o Ho) as [Ho1 _]. apply Hr in Ho1. lia.
  Qed.

  (** What is stored under an old id stays unless it is deleted; nothing is ever written there again. *)
  Lemma hist_keep s h s' id :
    SInv s -> (cnt s + N.of_nat (hist_inserts h) < 2 ^ 64)%N -> hist C s h s' -> (id < cnt s)%N ->
    vecs s' !! id_key id = vecs s !! id_key id /\
    (objs s' !! id_key id = objs s !! id_key id \/ objs s' !! id_key id = None /\ existsb (ev_deletes id) h = true).
  Proof.
    intros HI Hm Hh Hid. induction Hh as [|h e s1 s2 Hh IH Hs]; [split; [done|by left]|].
    rewrite hist_inserts_snoc in Hm.
    destruct IH as [IH1 IH2]; [lia|]. destruct (hist_store s h s1 HI ltac:(lia) Hh) as [HI1 Hc1].
    destruct (ev_step_store s1 e s2 HI1 ltac:(lia) Hs) as (HI2 & ids & Hw).
    pose proof (ew_cnt _ _ _ _ _ Hw) as Hc.
    assert (Hk : forall i, i ∈ ids -> id_key id <> id_key i).
    { intros i Hi Ek. apply (ew_range _ _ _ _ _ Hw) in Hi. apply id_key_inj in Ek; lia. }
    split; [by rewrite (ew_vecs _ _ _ _ _ Hw _ Hk)|].
    rewrite existsb_app. cbn [existsb].
    destruct (ew_objs _ _ _ _ _ Hw _ Hk) as [->|[-> (i & Ek & Hd)]].
    - destruct IH2 as [->|[-> ->]]; [by left|by right].
    - right. split; [done|]. apply orb_true_iff. right. 
      assert (Hi : (i < 2 ^ 64)%N).
      { clear -Hd. destruct e as [[]| |[]]; cbn in Hd; try done; apply bool_decide_eq_true in Hd as <-; apply u64_lt. }
      apply id_key_inj in Ek; [|lia|done]. subst i. by rewrite Hd.
  Qed.
  (** Everything in the two stores is an encoding within the size limit. *)
  Definition enc_ok (s : st) : Prop :=
    (forall (k b : bytes), objs s !! k = Some b -> (N.of_nat (length b) <= cp_maxval C)%N /\ exists p, ser_props (cp_json C) p = Val b) /\
    (forall (k b : bytes), vecs s !! k = Some b -> (N.of_nat (length b) <= cp_maxval C)%N /\ exists v, ser_vec v = Val b).
  Definition enc_rel (s s' : st) : Prop := enc_ok s -> enc_ok s'.
  Lemma enc_rel_refl s : enc_rel s s. Proof. unfold enc_rel. auto. Qed.
  Local Hint Resolve enc_rel_refl : core.
  Lemma enc_rel_trans a b c : enc_rel a b -> enc_rel b c -> enc_rel a c. Proof. unfold enc_rel. auto. Qed.
  Lemma enc_same s s' : objs s' = objs s -> vecs s' = vecs s -> enc_rel s s'.
  Proof. intros E1 E2 [H1 H2]. split; intros k b; rewrite ?E1, ?E2; [apply H1|apply H2]. Qed.
  Lemma enc_keep s s' : keep_store s s' -> enc_rel s s'.
  Proof. intros (K1&K2&K3&K4&K5&K6&K7&K8). by apply enc_same. Qed.
  Lemma enc_put o : steps enc_rel (put_object (cp_json C) (cp_maxval C) o).
  Proof.
    unfold put_object. destruct (ser_props (cp_json C) (o_props o)) as [ob|e|z] eqn:Eo; [|done..].
    destruct (ser_vec (vec_or_nil o)) as [vb|e|z] eqn:Ev; [|done..]. cbn [lift mbind prog_bind pbind].
    apply steps_bind; [|intros _].
    - apply steps_act. intros s. unfold bc_put. destruct (N.ltb_spec (cp_maxval C) (N.of_nat (length ob))); [done|].
      destruct (closed s); [done|]. cbn [fst]. intros [H1 H2]. split; [|done]. intros k b. cbn. destruct (decide (k = id_key (o_id o))) as [->|Hne].
      + rewrite lookup_insert. intros <-%(inj Some). split; [done|]. by exists (o_props o).
      + rewrite lookup_insert_ne by done. apply H1.
    - apply steps_act. intros s. unfold bc_put. destruct (N.ltb_spec (cp_maxval C) (N.of_nat (length vb))); [done|].
      destruct (closed s); [done|]. cbn [fst]. intros [H1 H2]. split; [done|]. intros k b. cbn. destruct (decide (k = id_key (o_id o))) as [->|Hne].
      + rewrite lookup_insert. intros <-%(inj Some). split; [done|]. by eexists.
      + rewrite lookup_insert_ne by done. apply H2.
  Qed.
  Lemma enc_insert_one tid level o : steps enc_rel (insert_one C tid level o).
  Proof.
    unfold insert_one. apply steps_bind; [|intros id; apply steps_bind; [apply enc_put|intros _]].
    - apply steps_act. intros s. apply enc_same; by destruct (closed s).
    - apply steps_bind; [|done]. eapply steps_mono; [apply enc_keep|]. apply insert_keep_store.
  Qed.
  Lemma enc_flush io : steps enc_rel (flush io).
  Proof. apply steps_act. intros s. apply enc_same; apply flush_store. Qed.
  Lemma enc_insert tid io level o : steps enc_rel (CollModel.insert C tid io level o).
  Proof.
    unfold CollModel.insert. apply steps_bind; [by apply steps_act|intros _]. apply steps_bind; [done|intros _].
    apply steps_bind; [done|]. intros [|o' [|? ?]]; [done| |done].
    apply steps_bind; [apply enc_insert_one|intros o'']. apply steps_bind; [apply enc_flush|done].
  Qed.
  Lemma enc_worker tid os : steps enc_rel (worker C tid os).
  Proof.
    induction os as [|[o l] os IH]; cbn [worker]; [done|]. apply steps_bind; [apply enc_insert_one|intros o'].
    apply steps_bind; [apply IH|done].
  Qed.
  Lemma enc_worker2 n tid : steps enc_rel (worker2 C n tid).
  Proof.
    induction n as [|n IH]; cbn [worker2]; (apply steps_bind; [apply steps_act; intros s; destruct (chan s); [done|by apply enc_same]|]); intros [[o l]|]; try done.
    - apply steps_bind; [apply enc_insert_one|done].
    - apply steps_bind; [apply enc_insert_one|intros o']. apply steps_bind; [apply IH|done].
  Qed.
  Lemma enc_del id s s' : del_rel id s s' -> enc_rel s s'.
  Proof.
    intros (_&_&_&_&D5&D6) [H1 H2]. split; [|by rewrite D5]. intros k b Hb.
    destruct (D6 k) as [E|[E _]]; [|by rewrite E in Hb]. apply (H1 k). etrans; [symmetry; exact E|exact Hb].
  Qed.
  Lemma enc_threads os s s' ts : rtc mstep (s, batch_threads C os) (s', ts) -> enc_rel s s'.
  Proof.
    intros Hr. apply (steps_rtc enc_rel enc_rel_refl enc_rel_trans _ _ Hr). cbn [snd]. unfold batch_threads.
    apply Forall_fmap, Forall_true. intros i. apply enc_worker.
  Qed.
  Lemma enc_threads2 os s s' ts : rtc mstep (s, batch2_threads C os) (s', ts) -> enc_rel s s'.
  Proof.
    intros Hr. apply (steps_rtc enc_rel enc_rel_refl enc_rel_trans _ _ Hr). cbn [snd]. unfold batch2_threads.
    apply Forall_fmap, Forall_true. intros i. apply enc_worker2.
  Qed.
  Lemma enc_wal_flush io s : enc_rel s (fst (wal_flush io s)).
  Proof. apply enc_same; apply flush_store. Qed.
  Lemma steps_search_keep o k : steps keep_store (semantic_search C 0 o k).
  Proof.
    unfold semantic_search. apply steps_bind; [by apply steps_act|intros _]. apply steps_bind; [done|]. intros [|o' [|? ?]]; [done| |done].
    apply steps_bind; [apply search_keep_store|intros es]. apply steps_bind; [by apply steps_act|intros os]. by apply steps_bind.
  Qed.
  Lemma enc_batch_run io ts s s' r rs :
    (forall s1 ts1, rtc mstep (s, ts) (s1, ts1) -> enc_rel s s1) -> batch_run io ts s s' r rs -> enc_rel s s'.
  Proof.
    intros H Hb. inversion Hb as [s1 rs1 s2 r1 H1 Hg Hf|s1 rs1 e H1 Hg]; subst; [|by eapply H].
    eapply enc_rel_trans; [by eapply H|]. replace s' with (fst (wal_flush io s1)) by (by rewrite Hf). apply enc_wal_flush.
  Qed.
  Lemma enc_run s c s' r : call_run C s c s' r -> enc_rel s s'.
  Proof.
    intros Hr. inversion Hr as [io level o s1 r1 Hx|io ol r1 Hp Hn|io ol os s1 r1 rs Hp Hb|io ol r1 Hp Hn|io ol os s1 r1 rs Hp Hb|io id f s1 r1 Hlk Hx|ids s1 r1 Hx|o k s1 r1 Hx|s1 r1 Hx|o s1 r1 Hx|s1 r1 Hx]; subst; try done.
    - eapply (steps_exec enc_rel enc_rel_refl enc_rel_trans); [apply enc_insert|exact Hx].
    - eapply enc_batch_run; [|exact Hb]. intros s1 ts1. apply enc_threads.
    - eapply (enc_rel_trans _ (set_chan (zip os ol.*2) s)); [by apply enc_same|]. apply (enc_rel_trans _ s1); [|by apply enc_same].
      eapply enc_batch_run; [|exact Hb]. intros s2 ts1. apply enc_threads2.
    - eapply enc_del. eapply (steps_exec (del_rel id) (del_rel_refl id) (del_rel_trans id)); [apply (steps_delete f io id)|exact Hx].
    - unfold CollModel.get in Hx. rewrite exec_act in Hx. by apply Some_pair_inj in Hx as [<- _].
    - apply enc_keep. eapply (steps_exec keep_store keep_store_refl keep_store_trans); [apply steps_search_keep|exact Hx].
    - unfold get_size in Hx. rewrite exec_act in Hx. by apply Some_pair_inj in Hx as [<- _].
    - unfold CollModel.update, check_open in Hx. rewrite exec_act in Hx. by apply Some_pair_inj in Hx as [<- _].
    - unfold CollModel.close in Hx. rewrite exec_act in Hx. destruct (closed s); apply Some_pair_inj in Hx as [<- _]; [done|by apply enc_same].
  Qed.
  Lemma enc_cut s c s' : call_cut C s c s' -> enc_rel s s'.
  Proof.
    intros Hr. inversion Hr as [|io level o s1 ts Hx|io ol os s1 ts Hp Hx|io ol os s1 ts Hp Hx|io id f s1 ts Hlk Hx]; subst; try done.
    - apply (steps_rtc enc_rel enc_rel_refl enc_rel_trans _ _ Hx). constructor; [apply enc_insert|constructor].
    - by eapply enc_threads.
    - eapply (enc_rel_trans _ (set_chan (zip os ol.*2) s)); [by apply enc_same|]. by eapply enc_threads2.
    - eapply enc_del. apply (steps_rtc (del_rel id) (del_rel_refl id) (del_rel_trans id) _ _ Hx). constructor; [apply steps_delete|constructor].
  Qed.
  Lemma enc_step s e s' : ev_step C s e s' -> enc_rel s s'.
  Proof.
    intros Hs. inversion Hs as [c s1 r Hr|s1 Hr|c n s1 s2 Hc Hr]; subst.
    - by eapply enc_run.
    - destruct (reopen_store _ _ Hr) as (R1&R2&R3&R4&R5&R6&R7&R8&R9). by apply enc_same.
    - destruct (reopen_store _ _ Hr) as (R1&R2&R3&R4&R5&R6&R7&R8&R9). eapply enc_rel_trans; [by eapply enc_cut|]. by apply enc_same.
  Qed.
  Lemma enc_empty : enc_ok empty_st.
  Proof. split; intros k b; cbn; by rewrite lookup_empty. Qed.
  Lemma hist_enc h s s' : hist C s h s' -> enc_ok s -> enc_ok s'.
  Proof. intros Hh H. induction Hh as [|h e s1 s2 Hh IH Hs]; [done|]. by apply (enc_step _ _ _ Hs). Qed.

  (** Objects have their vectors in histories where the vectors fit. *)
  Lemma hist_paired h s s' :
    SInv s -> (cnt s + N.of_nat (hist_inserts h) < 2 ^ 64)%N -> hist C s h s' -> Forall (ev_fits C) h ->
    (forall k, is_Some (objs s !! k) -> is_Some (vecs s !! k)) -> forall k, is_Some (objs s' !! k) -> is_Some (vecs s' !! k).
  Proof.
    intros HI Hm Hh Hf H0. induction Hh as [|h e s1 s2 Hh IH Hs]; [done|].
    rewrite hist_inserts_snoc in Hm. apply Forall_app in Hf as [Hf1 Hf2]. apply Forall_cons in Hf2 as [Hf2 _].
    destruct (hist_store s h s1 HI ltac:(lia) Hh) as [HI1 Hc1].
    destruct (ev_step_store s1 e s2 HI1 ltac:(lia) Hs) as (HI2 & ids & Hw).
    destruct (ew_pair _ _ _ _ _ Hw Hf2) as [P1 P2]. intros k Hk.
    destruct (P1 k Hk) as [Ho|Hv]; [|done]. apply P2. apply IH; [lia|done|done].
  Qed.
End hist.
