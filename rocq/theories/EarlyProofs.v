(** Runs with workers that outlive their batch call: who owns which id. *)
From stdpp Require Import relations.
From Verif Require Import GoBase FloatModel HeapModel ProgModel StateModel WalModel HnswModel StoreModel CollModel CallModel LinModel EarlyModel
  ProofBase CodecProofs WpProofs StepProofs StoreProofs LinProofs LinTrace.
Open Scope nat_scope.
Local Arguments id_key _ : simpl never.
Local Arguments le_put _ _ : simpl never.

(** A worker's book: the ids it got and how many more it may ask for. *)
Record eg := EG { e_ids : list N; e_bud : nat }.
Definition ids_of (xs : list eg) : list N := mjoin (e_ids <$> xs).
Definition buds (xs : list eg) : nat := sum_list (e_bud <$> xs).
Lemma ids_of_cons x xs : ids_of (x :: xs) = e_ids x ++ ids_of xs.
Proof. done. Qed.
Lemma ids_of_app xs ys : ids_of (xs ++ ys) = ids_of xs ++ ids_of ys.
Proof. unfold ids_of. by rewrite fmap_app, mjoin_app. Qed.
Lemma ids_of_perm xs ys : xs ≡ₚ ys -> ids_of xs ≡ₚ ids_of ys.
Proof. intros H. apply mjoin_perm. by apply fmap_Permutation. Qed.
Lemma buds_cons x xs : buds (x :: xs) = e_bud x + buds xs.
Proof. done. Qed.
Lemma buds_app xs ys : buds (xs ++ ys) = buds xs + buds ys.
Proof. unfold buds. rewrite fmap_app. induction xs; cbn; lia. Qed.
Lemma buds_perm xs ys : xs ≡ₚ ys -> buds xs = buds ys.
Proof. intros H. apply sum_list_perm. by apply fmap_Permutation. Qed.

Section early.
  Context (C : cparams) (D : bytes -> Prop).
  Notation J := (cp_json C).

  Definition eE (x : eg) (s s' : st) : Prop :=
    forall id, id ∈ e_ids x -> ~ D (id_key id) -> same_at (id_key id) s s'.
  Definition eGU (x : eg) (s : st) (x' : eg) (s' : st) : Prop :=
    (forall k, ~ D k -> (forall id, id ∈ e_ids x' -> k <> id_key id) -> same_at k s s') /\
    ((e_ids x' = e_ids x /\ cnt s' = cnt s /\ e_bud x' + length (chan s') <= e_bud x + length (chan s)) \/
     (e_ids x' = e_ids x ++ [cnt s] /\ e_bud x = S (e_bud x') /\ cnt s' = u64 (cnt s + 1) /\ chan s' = chan s)).
  Definition eB (x : eg) (s : st) : Prop := True.
  Notation ewp := (wp eE eGU eB).

  Lemma same_at_refl k s : same_at k s s. Proof. done. Qed.
  Lemma eE_refl x s : eE x s s. Proof. by intros id _ _. Qed.
  Lemma eE_trans x a b c : eE x a b -> eE x b c -> eE x a c.
  Proof. intros H1 H2 id Hi Hd. eapply same_at_trans; [by apply H1|by apply H2]. Qed.
  Lemma eE_sub x x1 s s' : (forall id, id ∈ e_ids x -> id ∈ e_ids x1) -> eE x1 s s' -> eE x s s'.
  Proof. intros Hs H id Hi. by apply H, Hs. Qed.
  Lemma eE_same x s s' : objs s' = objs s -> vecs s' = vecs s -> eE x s s'.
  Proof. intros E1 E2 id _ _. split; congruence. Qed.

  (** ** All the books together *)
  Record eW (c0 : N) (s0 : st) (M : N) (xs : list eg) (q : nat) (s : st) : Prop := EW {
    ew_nodup : NoDup (ids_of xs);
    ew_range : forall id, id ∈ ids_of xs -> (c0 <= id < cnt s)%N;
    ew_start : (c0 <= cnt s)%N;
    ew_bud : (cnt s + N.of_nat (buds xs + length (chan s) + q) <= M)%N;
    ew_keep : forall k, ~ D k -> (forall id, id ∈ ids_of xs -> k <> id_key id) -> same_at k s0 s
  }.
  Lemma eW_weak c0 s0 M M' xs xs' q q' s s' :
    eW c0 s0 M xs q s -> ids_of xs' ≡ₚ ids_of xs -> cnt s' = cnt s -> objs s' = objs s -> vecs s' = vecs s ->
    (N.of_nat (buds xs' + length (chan s') + q') + M <= N.of_nat (buds xs + length (chan s) + q) + M')%N -> eW c0 s0 M' xs' q' s'.
  Proof.
    intros [H1 H2 H3 H4 H5] Hp Ec Eo Ev Hb. split.
    - by rewrite Hp.
    - intros id. rewrite Hp, Ec. apply H2.
    - by rewrite Ec.
    - rewrite Ec. lia.
    - intros k Hk Hid. destruct (H5 k Hk) as [E1 E2]; [intros id Hi; apply Hid; by rewrite Hp|]. split; congruence.
  Qed.
  Lemma eW_perm c0 s0 M xs xs' q s : xs ≡ₚ xs' -> eW c0 s0 M xs q s -> eW c0 s0 M xs' q s.
  Proof.
    intros Hp HW. eapply eW_weak; [exact HW|by apply ids_of_perm|done..|]. rewrite (buds_perm _ _ Hp). lia.
  Qed.

  Lemma eW_step c0 s0 M x xs q s x' s' :
    (M < 2 ^ 64)%N -> eW c0 s0 M (x :: xs) q s -> eGU x s x' s' ->
    eW c0 s0 M (x' :: xs) q s' /\ forall y, y ∈ xs -> eE y s s'.
  Proof.
    intros HM [H1 H2 H3 H4 H5] [Hk Hi]. rewrite ids_of_cons in *.
    assert (Hc : (cnt s <= M)%N) by lia.
    assert (Hnew : NoDup (e_ids x' ++ ids_of xs) /\ (forall id, id ∈ e_ids x' ++ ids_of xs -> (c0 <= id < cnt s')%N) /\ (cnt s <= cnt s')%N /\
      (cnt s' + N.of_nat (buds (x' :: xs) + length (chan s') + q) <= M)%N /\ (forall id, id ∈ e_ids x -> id ∈ e_ids x')).
    { rewrite buds_cons in *. destruct Hi as [(E1 & E2 & E3)|(E1 & E2 & E3 & E4)].
      - rewrite E1, E2. split_and!; [done..|lia|lia|done].
      - rewrite u64_small in E3 by lia. rewrite E1, E3, E4. split_and!.
        + rewrite <- app_assoc. apply (NoDup_Permutation_proper (cnt s :: e_ids x ++ ids_of xs)); [by rewrite Permutation_middle|].
          constructor; [|done]. intros Hin%H2. lia.
        + intros id. rewrite <- app_assoc, !elem_of_app, elem_of_list_singleton. intros [Hin|[->|Hin]]; [|lia|].
          * assert (c0 <= id < cnt s)%N; [apply H2; set_solver|lia].
          * assert (c0 <= id < cnt s)%N; [apply H2; set_solver|lia].
        + lia.
        + lia.
        + set_solver. }
    destruct Hnew as (N1 & N2 & N3 & N4 & N5). split.
    - split; rewrite ?ids_of_cons; try done; [lia|]. intros k Hd Hid. eapply same_at_trans.
      + apply H5; [done|]. intros id Hin. apply Hid. set_solver.
      + apply Hk; [done|]. intros id Hin. apply Hid. set_solver.
    - intros y Hy id Hin Hd. apply Hk; [done|]. intros id' Hin' E.
      assert (id ∈ ids_of xs) as Hids. { apply elem_of_list_join. exists (e_ids y). split; [done|]. by apply elem_of_list_fmap_1. }
      assert (id = id') as <-.
      { apply id_key_inj in E; [done|..].
        - assert (c0 <= id < cnt s')%N; [apply N2; set_solver|lia].
        - assert (c0 <= id' < cnt s')%N; [apply N2; set_solver|lia]. }
      apply NoDup_app in N1 as (_ & N1 & _). by eapply N1.
  Qed.

  (** ** Programs *)
  Lemma ewp_env {A} (p : prog st A) Q x s s1 : eE x s s1 -> ewp p Q x s -> ewp p Q x s1.
  Proof. apply wp_env. apply eE_trans. Qed.

  (** Steps that do not touch stores, counter or channel. *)
  Definition ekeep (s s' : st) : Prop := objs s' = objs s /\ vecs s' = vecs s /\ cnt s' = cnt s /\ chan s' = chan s.
  Lemma ekeep_refl s : ekeep s s. Proof. done. Qed.
  Lemma ekeep_E x s s' : ekeep s s' -> eE x s s'.
  Proof. intros (E1 & E2 & _). by apply eE_same. Qed.
  Lemma ekeep_GU x s s' : ekeep s s' -> eGU x s x s'.
  Proof. intros (E1 & E2 & E3 & E4). split; [by split; congruence|]. left. by rewrite E3, E4. Qed.
  Lemma keep_ekeep s s' : keep_store s s' -> ekeep s s'.
  Proof. by intros (_&_&?&_&?&?&?&_). Qed.
  Lemma flush_ekeep io s : ekeep s (fst (wal_flush io s)).
  Proof. destruct (flush_store io s) as (_&?&?&?&_&?). done. Qed.
  Lemma ewp_steps {A} (p : prog st A) (Q : eg -> out A -> st -> Prop) x s :
    steps ekeep p -> (forall r s', eE x s s' -> Q x r s') -> ewp p Q x s.
  Proof.
    revert s. induction p as [r|f IH] using prog_ind'; intros s Hp HQ; cbn [wp].
    - intros s1 He. by apply HQ.
    - intros s1 He. cbn [steps] in Hp. specialize (Hp s1). destruct (f s1) as [[s2 p']|] eqn:Ef; [|done].
      destruct Hp as [HK Hp]. exists x. split; [by apply ekeep_GU|].
      eapply IH; [exact Ef|exact Hp|]. intros r s' He'. apply HQ. eapply eE_trans; [exact He|]. eapply eE_trans; [|exact He']. by apply ekeep_E.
  Qed.

  Lemma ewp_put_object o x s : o_id o ∈ e_ids x ->
    ewp (put_object J (cp_maxval C) o)
      (fun x' r s' => x' = x /\
         (forall id, id ∈ e_ids x -> id_key id <> id_key (o_id o) -> ~ D (id_key id) -> same_at (id_key id) s s') /\
         (r = Val tt -> ~ D (id_key (o_id o)) -> stored C s' o)) x s.
  Proof.
    intros Hid. unfold put_object.
    apply (wp_bind _ _ _ eE_refl), wp_done. intros s0 He0.
    destruct (ser_props J (o_props o)) as [ob|e|z] eqn:Eob.
    2,3: split_and!; [done| |done]; intros id Hi _ Hd; by apply He0.
    apply (wp_bind _ _ _ eE_refl), wp_done. intros s0' He0'.
    assert (He : eE x s s0') by (by eapply eE_trans). clear s0 He0 He0'.
    destruct (ser_vec (vec_or_nil o)) as [vb|e|z] eqn:Evb.
    2,3: split_and!; [done| |done]; intros id Hi _ Hd; by apply He.
    apply (wp_bind _ _ _ eE_refl), wp_act. intros s1 He1. assert (Hes1 : eE x s s1) by (by eapply eE_trans). clear s0' He He1.
    unfold bc_put. exists x.
    assert (Hstop : forall e s', eE x s s' -> x = x /\ (forall id, id ∈ e_ids x -> id_key id <> id_key (o_id o) -> ~ D (id_key id) -> same_at (id_key id) s s') /\
      (@Err unit e = Val tt -> ~ D (id_key (o_id o)) -> stored C s' o)).
    { intros e s' H. split_and!; [done| |done]. intros id Hi _ Hd. by apply H. }
    destruct (N.ltb_spec (cp_maxval C) (N.of_nat (length ob))) as [Hlt|Hlt]; cbn [fst snd].
    { split; [by apply ekeep_GU|]. intros s2 He2. apply Hstop. by eapply eE_trans. }
    destruct (closed s1); cbn [fst snd].
    { split; [by apply ekeep_GU|]. intros s2 He2. apply Hstop. by eapply eE_trans. }
    split.
    { split; [|by left]. intros k Hd Hk. split; [|done]. cbn. rewrite lookup_insert_ne; [done|]. intros <-. by eapply Hk. }
    intros s2 He2. apply wp_act. intros s3 He3.
    assert (He23 : eE x (set_objs (<[id_key (o_id o) := ob]> (objs s1)) s1) s3) by (by eapply eE_trans). clear s2 He2 He3.
    assert (Hk1 : forall id, id ∈ e_ids x -> id_key id <> id_key (o_id o) -> ~ D (id_key id) -> same_at (id_key id) s s3).
    { intros id Hi Hne Hd. destruct (Hes1 _ Hi Hd) as [a1 a2]. destruct (He23 _ Hi Hd) as [b1 b2]. cbn in b1, b2.
      rewrite lookup_insert_ne in b1 by done. split; congruence. }
    exists x. destruct (N.ltb_spec (cp_maxval C) (N.of_nat (length vb))) as [Hlv|Hlv]; cbn [fst snd].
    { split; [by apply ekeep_GU|]. intros s4 He4. split_and!; [done| |done]. intros id Hi Hne Hd. eapply same_at_trans; [by apply Hk1|by apply He4]. }
    destruct (closed s3); cbn [fst snd].
    { split; [by apply ekeep_GU|]. intros s4 He4. split_and!; [done| |done]. intros id Hi Hne Hd. eapply same_at_trans; [by apply Hk1|by apply He4]. }
    split.
    { split; [|by left]. intros k Hd Hk. split; [done|]. cbn. rewrite lookup_insert_ne; [done|]. intros <-. by eapply Hk. }
    intros s4 He4. split_and!; [done| |].
    - intros id Hi Hne Hd. eapply same_at_trans; [by apply Hk1|].
      destruct (He4 _ Hi Hd) as [b1 b2]. cbn in b1, b2. rewrite lookup_insert_ne in b2 by done. split; congruence.
    - intros _ Hd. destruct (He23 _ Hid Hd) as [b1 b2]. cbn in b1. rewrite lookup_insert in b1.
      destruct (He4 _ Hid Hd) as [c1 c2]. cbn in c1, c2. rewrite lookup_insert in c2.
      exists ob, vb. split_and!; try done; congruence.
  Qed.

  Lemma ewp_fetch x s b : e_bud x = S b ->
    ewp fetch_and_inc
      (fun x' r s' => exists id, e_ids x' = e_ids x ++ [id] /\ e_bud x' = b /\ (forall a, r = Val a -> a = id) /\ eE x s s') x s.
  Proof.
    intros Hb. unfold fetch_and_inc. apply wp_act. intros s1 He. exists (EG (e_ids x ++ [cnt s1]) b).
    destruct (closed s1); cbn [fst snd].
    all: split; [split; [intros k _ _; by split|right; by split_and!]|].
    all: intros s3 He3; exists (cnt s1); split_and!; [done|done|by intros a [= <-]|]; eapply eE_trans; [exact He|];
      eapply (eE_trans _ _ (set_cnt _ _ s1)); [|eapply eE_sub; [|exact He3]; cbn; set_solver]; by apply eE_same.
  Qed.

  (** What is acknowledged: different ids out of [ids], each object stored unless
      it may be deleted. *)
  Definition eack (os : list object) (ids : list N) (s : st) : Prop :=
    good_ids ids -> o_id <$> os ⊆+ ids /\ Forall (fun o => ~ D (id_key (o_id o)) -> stored C s o) os.
  Lemma eack_nil ids s : eack [] ids s.
  Proof. intros _. split; [apply submseteq_nil_l|constructor]. Qed.
  Lemma stored_at s s' o : same_at (id_key (o_id o)) s s' -> stored C s o -> stored C s' o.
  Proof. intros [E1 E2] (ob & vb & ? & ? & ? & ? & ? & ?). exists ob, vb. rewrite E1, E2. by split_and!. Qed.
  Lemma eack_same os ids s s' :
    (forall id, id ∈ ids -> ~ D (id_key id) -> same_at (id_key id) s s') -> eack os ids s -> eack os ids s'.
  Proof.
    intros Hs Ha Hg. destruct (Ha Hg) as [H1 H2]. split; [done|]. rewrite Forall_forall in *. intros o Ho Hd.
    eapply stored_at; [|by apply H2]. apply Hs; [|done]. eapply elem_of_submseteq; [|exact H1]. by apply elem_of_list_fmap_1.
  Qed.

  Definition eins_post (o : object) (x : eg) (s : st) (b : nat) (x' : eg) (r : out object) (s' : st) : Prop :=
    exists id, e_ids x' = e_ids x ++ [id] /\ e_bud x' = b /\ (good_ids (e_ids x') -> eE x s s') /\
      (forall o', r = Val o' -> o_id o' = id /\ (~ D (id_key id) -> stored C s' o')).
  Lemma ewp_insert_one tid level o x s b : e_bud x = S b ->
    ewp (insert_one C tid level o) (eins_post o x s b) x s.
  Proof.
    intros Hb. unfold insert_one. apply (wp_bind _ _ _ eE_refl).
    eapply wp_mono; [|by eapply ewp_fetch]. cbn beta. intros x1 r1 s1 (id & Hids & Hb1 & Hr1 & He1).
    destruct r1 as [a|e|z]; [|exists id; split_and!; by try done..].
    rewrite (Hr1 a eq_refl). clear Hr1.
    apply (wp_bind _ _ _ eE_refl).
    eapply wp_mono; [|apply (ewp_put_object (Object id (o_props o) (o_vec o))); rewrite Hids; set_solver].
    cbn beta. intros x2 r2 s2 (-> & Hk2 & Hst2). cbn [o_id] in *.
    assert (HE : good_ids (e_ids x1) -> eE x s s2).
    { intros [Hnd Hlt]. eapply eE_trans; [exact He1|]. intros i Hi. apply Hk2; [rewrite Hids; set_solver|].
      intros Ek. apply id_key_inj in Ek; [|apply Hlt; rewrite Hids; set_solver..]. subst i.
      rewrite Hids in Hnd. apply NoDup_app in Hnd as (_ & Hd & _). apply (Hd id Hi). set_solver. }
    destruct r2 as [[]|e|z]; [|exists id; split_and!; by try done..].
    specialize (Hst2 eq_refl). apply (wp_bind _ _ _ eE_refl).
    apply ewp_steps; [eapply steps_mono; [|apply insert_keep_store]; apply keep_ekeep|].
    intros r3 s3 He3.
    assert (HE3 : good_ids (e_ids x1) -> eE x s s3).
    { intros Hg. eapply eE_trans; [by apply HE|]. eapply eE_sub; [|exact He3]. rewrite Hids. set_solver. }
    destruct r3 as [[]|e|z]; [|exists id; split_and!; by try done..].
    apply wp_ret. intros s4 He4. exists id. split_and!; [done..| |].
    - intros Hg. eapply eE_trans; [by apply HE3|]. eapply eE_sub; [|exact He4]. rewrite Hids. set_solver.
    - intros o' [= <-]. split; [done|]. intros Hd. eapply stored_at; [apply (He4 id); [rewrite Hids; set_solver|done]|].
      eapply stored_at; [apply (He3 id); [rewrite Hids; set_solver|done]|]. by apply Hst2.
  Qed.

  Definition ewk_post (x : eg) (s : st) (x' : eg) (r : out (list object)) (s' : st) : Prop :=
    exists ids, e_ids x' = e_ids x ++ ids /\ (good_ids (e_ids x') -> eE x s s') /\
      (forall os, r = Val os -> ids = o_id <$> os /\ (good_ids (e_ids x') -> Forall (fun o => ~ D (id_key (o_id o)) -> stored C s' o) os)).
  (** One more object before the rest. *)
  Lemma ewk_cons o (k : prog st (list object)) x x1 s s1 id :
    e_ids x1 = e_ids x ++ [id] -> (good_ids (e_ids x1) -> eE x s s1) -> o_id o = id -> (~ D (id_key id) -> stored C s1 o) ->
    ewp k (ewk_post x1 s1) x1 s1 ->
    ewp (k ≫= fun done => mret (o :: done)) (ewk_post x s) x1 s1.
  Proof.
    intros Hids HE Ho Hst Hw. apply (wp_bind _ _ _ eE_refl). eapply wp_mono; [|exact Hw].
    cbn beta. intros x2 r2 s2 (ids & Hids2 & HE2 & Hr2).
    assert (Hids' : e_ids x2 = e_ids x ++ id :: ids) by (rewrite Hids2, Hids, <- app_assoc; done).
    assert (HEx : good_ids (e_ids x2) -> eE x s s2).
    { intros Hg. eapply eE_trans; [apply HE; rewrite Hids2 in Hg; by eapply good_ids_app|]. eapply eE_sub; [|by apply HE2]. rewrite Hids. set_solver. }
    destruct r2 as [os|e|z]; [|exists (id :: ids); split_and!; by try done..].
    destruct (Hr2 os eq_refl) as [-> Hst2]. apply wp_ret. intros s3 He3. exists (id :: (o_id <$> os)). split_and!; [done|..].
    - intros Hg. eapply eE_trans; [by apply HEx|]. eapply eE_sub; [|exact He3]. rewrite Hids'. set_solver.
    - intros os' [= <-]. split; [cbn; by rewrite Ho|]. intros Hg. constructor.
      + intros Hd. rewrite Ho in Hd. eapply stored_at; [rewrite Ho; apply (He3 id); [rewrite Hids'; set_solver|done]|].
        eapply stored_at; [rewrite Ho; apply (HE2 Hg id); [rewrite Hids; set_solver|done]|]. by apply Hst.
      + specialize (Hst2 Hg). rewrite Forall_forall in Hst2 |- *. intros o' Ho' Hd. eapply stored_at; [apply (He3 (o_id o')); [|done]|by apply Hst2].
        rewrite Hids'. apply elem_of_app. right. apply elem_of_cons. right. by apply elem_of_list_fmap_1.
  Qed.
  Lemma ewk_stop {A} x x1 s s1 id (r : out A) : e_ids x1 = e_ids x ++ [id] -> (good_ids (e_ids x1) -> eE x s s1) ->
    (forall e, ewk_post x s x1 (Err e) s1) /\ (forall z, ewk_post x s x1 (Pan z) s1).
  Proof. intros H1 H2. split; intros ?; exists [id]; by split_and!. Qed.
  Lemma ewp_worker tid os : forall x s, length os <= e_bud x -> ewp (worker C tid os) (ewk_post x s) x s.
  Proof.
    induction os as [|[o level] os IH]; intros x s Hb; cbn [worker length] in *.
    - apply wp_ret. intros s1 He. exists []. rewrite app_nil_r. split_and!; [done..|]. intros os' [= <-]. split; [done|]. intros _. constructor.
    - destruct (e_bud x) as [|b] eqn:Eb; [lia|].
      apply (wp_bind _ _ _ eE_refl). eapply wp_mono; [|by apply ewp_insert_one].
      cbn beta. intros x1 r1 s1 (id & Hids & Hb1 & HE1 & Hr1).
      destruct (ewk_stop x x1 s s1 id r1 Hids HE1) as [S1 S2]. destruct r1 as [o1|e|z]; [|done..].
      destruct (Hr1 o1 eq_refl) as [Ho1 Hst1]. eapply ewk_cons; [done..|]. apply IH. lia.
  Qed.
  Lemma ewp_worker2 tid n : forall x s, ewp (worker2 C n tid) (ewk_post x s) x s.
  Proof.
    induction n as [n IH] using lt_wf_ind; intros x s.
    assert (Hnone : forall s1, eE x s s1 -> ewk_post x s x (Val []) s1).
    { intros s1 He. exists []. rewrite app_nil_r. split_and!; [done..|]. intros os' [= <-]. split; [done|]. intros _. constructor. }
    destruct n as [|n]; cbn [worker2].
    all: apply (wp_bind _ _ _ eE_refl), wp_act; intros s1 He1; destruct (chan s1) as [|[o level] ch] eqn:Ech; cbn [fst snd].
    1,3: exists x; split; [by apply ekeep_GU|]; intros s2 He2; apply wp_ret; intros s3 He3; apply Hnone;
      eapply eE_trans; [exact He1|]; by eapply eE_trans.
    all: exists (EG (e_ids x) (S (e_bud x))); set (x1 := EG _ _);
      (split; [split; [intros k _ _; by split|left; split_and!; [done..|]; rewrite Ech; cbn; lia]|]); intros s2 He2;
      assert (Hes2 : eE x s s2) by (eapply eE_trans; [exact He1|]; eapply (eE_trans _ _ (set_chan ch s1)); [by apply eE_same|exact He2]);
      apply (wp_bind _ _ _ eE_refl); (eapply wp_mono; [|by apply (ewp_insert_one tid level o x1 s2 (e_bud x))]);
      cbn beta; intros x3 r3 s3 (id & Hids & Hb3 & HE3 & Hr3); cbn [e_ids x1] in Hids;
      assert (HE3' : good_ids (e_ids x3) -> eE x s s3) by (intros Hg; eapply eE_trans; [exact Hes2|]; by apply (HE3 Hg));
      destruct (ewk_stop x x3 s s3 id r3 Hids HE3') as [S1 S2]; (destruct r3 as [o3|e|z]; [|done..]).
    - apply wp_done. intros s4 He4. exists [id]. split_and!; [done| |done]. intros Hg. eapply eE_trans; [by apply HE3'|].
      eapply eE_sub; [|exact He4]. rewrite Hids. set_solver.
    - destruct (Hr3 o3 eq_refl) as [Ho3 Hst3]. eapply ewk_cons; [done..|]. apply IH. lia.
  Qed.

  Definition eQw (x : eg) (r : out (list object)) (s : st) : Prop := forall os, r = Val os -> eack os (e_ids x) s.
  Definition eQi (x : eg) (r : out object) (s : st) : Prop := forall o, r = Val o -> eack [o] (e_ids x) s.
  Lemma ewk_Qw x s x' r s' : ewk_post x s x' r s' -> eQw x' r s'.
  Proof.
    intros (ids & Hids & _ & Hr) os ->. destruct (Hr os eq_refl) as [-> Hst]. intros Hg. split; [|by apply Hst].
    rewrite Hids. by apply submseteq_inserts_l.
  Qed.

  Lemma ewp_insert tid io level o x s : e_bud x = 1 -> ewp (CollModel.insert C tid io level o) eQi x s.
  Proof.
    intros Hb. unfold CollModel.insert.
    apply (wp_bind _ _ _ eE_refl). apply ewp_steps; [by apply steps_act|]. intros r1 s1 He1.
    destruct r1 as [[]|e|z]; [|done..].
    apply (wp_bind _ _ _ eE_refl). apply wp_done. intros s2 He2. destruct (validate_objects C 0 [o]) as [[]|e|z]; [|done..].
    apply (wp_bind _ _ _ eE_refl). apply wp_done. intros s3 He3. destruct (embed_objects C [o]) as [os|e|z]; [|done..].
    destruct os as [|o1 [|? ?]]; [apply wp_done; by intros|..|apply wp_done; by intros].
    apply (wp_bind _ _ _ eE_refl). eapply wp_mono; [|by apply (ewp_insert_one tid level o1 x s3 0)].
    cbn beta. intros x4 r4 s4 (id & Hids & Hb4 & HE4 & Hr4). destruct r4 as [o4|e|z]; [|done..].
    destruct (Hr4 o4 eq_refl) as [Ho4 Hst4].
    apply (wp_bind _ _ _ eE_refl). apply ewp_steps; [apply steps_act; intros; apply flush_ekeep|]. intros r5 s5 He5.
    destruct r5 as [[]|e|z]; [|done..]. apply wp_ret. intros s6 He6 o' [= <-] Hg.
    assert (id ∈ e_ids x4) as Hin by (rewrite Hids; set_solver). split.
    - cbn. rewrite Ho4. by apply singleton_submseteq_l.
    - rewrite Forall_singleton, Ho4. intros Hd. eapply stored_at; [rewrite Ho4; by apply (He6 id)|].
      eapply stored_at; [rewrite Ho4; by apply (He5 id)|]. by apply Hst4.
  Qed.
  Lemma ewp_delete_rest io id x s : D (id_key id) -> ewp (delete_rest io id) (fun _ _ _ => True) x s.
  Proof.
    intros Hd. unfold delete_rest, delete_object. apply (wp_bind _ _ _ eE_refl), wp_act. intros s1 He1. exists x.
    destruct (closed s1); cbn [fst snd].
    { split; [by apply ekeep_GU|done]. }
    split.
    { split; [|by left]. intros k Hk _. split; [|done]. cbn. rewrite lookup_delete_ne; [done|]. by intros <-. }
    intros s2 He2. apply (wp_bind _ _ _ eE_refl). apply ewp_steps.
    { unfold hnsw_delete. rewrite enc_delete_eq. by apply steps_act. }
    intros r3 s3 He3. destruct r3 as [[]|e|z]; [|done..]. apply ewp_steps; [apply steps_act; intros; apply flush_ekeep|done].
  Qed.
  Lemma ewp_update o x s : ewp (update o) (fun _ _ _ => True) x s.
  Proof. apply ewp_steps; [by apply steps_act|done]. Qed.
  Lemma ewp_close x s : ewp close (fun _ _ _ => True) x s.
  Proof. apply ewp_steps; [|done]. apply steps_act. intros s1. by destruct (closed s1). Qed.
End early.
