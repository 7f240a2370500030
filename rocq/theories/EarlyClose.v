(** Close next to other goroutines and to workers that outlive their batch:
    once the collection is closed nobody writes to its files. *)
From stdpp Require Import relations.
From Verif Require Import GoBase FloatModel HeapModel ProgModel StateModel WalModel HnswModel StoreModel CollModel CallModel LinModel EarlyModel
  ProofBase WpProofs StepProofs StoreProofs LinProofs LinTrace EarlyTrace.
Open Scope nat_scope.
Local Arguments id_key _ : simpl never.
Local Arguments le_put _ _ : simpl never.

(** Steps that neither open nor close. *)
Definition sc (s s' : st) : Prop := closed s' = closed s.
(** ... and that leave the files of a closed collection alone. *)
Definition wk (s s' : st) : Prop := closed s' = closed s /\ (closed s = true -> disk_of s' = disk_of s).
Lemma wk_refl s : wk s s. Proof. done. Qed.
Lemma wk_trans a b c : wk a b -> wk b c -> wk a c.
Proof. intros [H1 H2] [H3 H4]. split; [congruence|]. intros Hc. rewrite H4 by congruence. by apply H2. Qed.
Lemma keep_wk s s' : keep_store s s' -> wk s s'.
Proof. intros (?&E1&?&E2&E3&E4&?&?). split; [done|]. intros _. unfold disk_of. congruence. Qed.
Lemma wk_chan s q : wk s (set_chan q s). Proof. done. Qed.
Lemma wk_sc s s' : wk s s' -> sc s s'. Proof. by intros []. Qed.

(** Programs that, run on a closed collection, leave the files alone. *)
Fixpoint fz {A} (p : prog st A) : Prop :=
  match p with
  | Done _ => True
  | Step f => forall s, closed s = true ->
      match f s with None => True | Some (s', p') => disk_of s' = disk_of s /\ fz p' end
  end.

Section close.
  Context (C : cparams).

  Lemma wk_fetch : steps wk fetch_and_inc.
  Proof. apply steps_act. intros s. destruct (closed s) eqn:E; split; cbn; try done. congruence. Qed.
  Lemma wk_put o : steps wk (put_object (cp_json C) (cp_maxval C) o).
  Proof.
    unfold put_object. apply steps_bind; [done|intros ob]. apply steps_bind; [done|intros vb].
    apply steps_bind; [|intros _]; apply steps_act; intros s; destruct (bc_put _ _ _ _); try done; destruct (closed s) eqn:E; try done; split; cbn; congruence.
  Qed.
  Lemma wk_insert_one tid level o : steps wk (insert_one C tid level o).
  Proof.
    unfold insert_one. apply steps_bind; [apply wk_fetch|intros id]. apply steps_bind; [apply wk_put|intros _].
    apply steps_bind; [|done]. eapply steps_mono; [apply keep_wk|apply insert_keep_store].
  Qed.
  Lemma wk_worker tid os : steps wk (worker C tid os).
  Proof.
    induction os as [|[o l] os IH]; [done|]. cbn [worker]. apply steps_bind; [apply wk_insert_one|intros o']. by apply steps_bind.
  Qed.
  Lemma wk_worker2 n tid : steps wk (worker2 C n tid).
  Proof.
    induction n as [|n IH]; cbn [worker2]; (apply steps_bind; [apply steps_act; intros s; by destruct (chan s)|intros [[o l]|]; [|done]]);
      (apply steps_bind; [apply wk_insert_one|intros o']); [done|]. by apply steps_bind.
  Qed.
  Lemma wk_search v k : steps wk (hnsw_search (cp_h C) 0 (cp_fuel C) v k).
  Proof. eapply steps_mono; [apply keep_wk|apply search_keep_store]. Qed.
  Lemma sc_flush io : steps sc (flush io).
  Proof. apply steps_act. intros s. unfold sc, wal_flush. destruct (batch s); [done|]. destruct (in_order _ _); [|done]. by destruct io. Qed.
  Lemma sc_insert io level o : steps sc (CollModel.insert C 0 io level o).
  Proof.
    unfold CollModel.insert. apply steps_bind; [by apply steps_act|intros _]. apply steps_bind; [done|intros _].
    apply steps_bind; [done|]. intros [|o' [|? ?]]; [done| |done]. apply steps_bind; [eapply steps_mono; [apply wk_sc|apply wk_insert_one]|intros o''].
    apply steps_bind; [apply sc_flush|done].
  Qed.
  Lemma sc_delete_rest io id : steps sc (delete_rest io id).
  Proof.
    unfold delete_rest. apply steps_bind; [apply steps_act; intros s; by destruct (closed s)|intros _].
    apply steps_bind; [|intros _; apply sc_flush]. unfold hnsw_delete. destruct (enc_delete id); [|done..]. by apply steps_act.
  Qed.
  Lemma fz_insert io level o : fz (CollModel.insert C 0 io level o).
  Proof. intros s Hc. cbn. by rewrite Hc. Qed.
  Lemma fz_delete_rest io id : fz (delete_rest io id).
  Proof. intros s Hc. cbn. by rewrite Hc. Qed.

  (** ** The invariant *)
  Definition kok (t : client) : Prop :=
    match t with
    | TX _ (XIns p) => steps sc p
    | TX _ (XUnit p) => p = close \/ p = check_open \/ exists r, p = Done r
    | TX _ (XDel p) => steps sc p
    | TX _ (XWork _ _ ws) => Forall (steps wk) ws
    | TR _ (YGet p) => steps wk p
    | TR _ (YSearch p) => steps wk p
    | _ => True
    end.
  Definition frz (t : client) : Prop :=
    match t with
    | TX _ (XIns p) => fz p
    | TX _ (XDel p) => fz p
    | TX _ (XWork _ _ _) => False
    | _ => True
    end.
  Record kinv (m : esys) : Prop := KInv {
    k_excl : forall i j t u, m.1.2 !! i = Some t -> m.1.2 !! j = Some u -> holds_x t -> holds u -> i = j;
    k_ok : Forall kok m.1.2;
    k_groups : Forall (fun g : group => Forall (steps wk) g.2) m.2;
    k_frozen : closed m.1.1 = true -> Forall frz m.1.2
  }.
  Lemma kinv_start s n : kinv (s, replicate n TIdle, []).
  Proof.
    split; cbn.
    - intros i j t u Hi _ Hx. apply lookup_replicate in Hi as [-> _]. done.
    - by apply Forall_replicate.
    - constructor.
    - intros _. by apply Forall_replicate.
  Qed.

  Lemma free_frz t : ~ holds_x t -> frz t.
  Proof. destruct t as [| | | |c []| |]; cbn; try done; intros H; by destruct (H I). Qed.

  (** One client moves. *)
  Lemma kinv_put s ts gs i t s' t' :
    kinv (s, ts, gs) -> ts !! i = Some t -> kok t' ->
    (holds t' -> holds t \/ Forall (fun u => ~ holds_x u) ts) ->
    (holds_x t' -> holds_x t \/ Forall (fun u => ~ holds u) ts) ->
    (closed s' = true -> frz t' /\ (closed s = true \/ holds_x t)) ->
    kinv (s', <[i := t']> ts, gs).
  Proof.
    intros [H1 H2 H3 H4] Hi Hk Hh Hx Hf. cbn [fst snd] in *. split; cbn [fst snd].
    - intros a b u v Ha Hb Hu Hv.
      destruct (decide (a = i)) as [->|Hai], (decide (b = i)) as [->|Hbi]; [done|..].
      + rewrite list_lookup_insert in Ha by (by eapply lookup_lt_Some). injection Ha as <-.
        rewrite list_lookup_insert_ne in Hb by done. destruct (Hx Hu) as [Hx'|Hno]; [by eapply H1|].
        rewrite Forall_lookup in Hno. by destruct (Hno b v).
      + rewrite list_lookup_insert in Hb by (by eapply lookup_lt_Some). injection Hb as <-.
        rewrite list_lookup_insert_ne in Ha by done. destruct (Hh Hv) as [Hh'|Hno]; [by eapply H1|].
        rewrite Forall_lookup in Hno. by destruct (Hno a u).
      + rewrite list_lookup_insert_ne in Ha, Hb by done. by eapply H1.
    - by apply Forall_insert.
    - done.
    - intros Hc. destruct (Hf Hc) as [Hf1 Hf2]. apply Forall_lookup. intros a u Ha. destruct (decide (a = i)) as [->|Hai].
      + rewrite list_lookup_insert in Ha by (by eapply lookup_lt_Some). by injection Ha as <-.
      + rewrite list_lookup_insert_ne in Ha by done. destruct Hf2 as [Hf2|Hf2].
        * by apply (Forall_lookup_1 _ _ _ _ (H4 Hf2) Ha).
        * apply free_frz. intros Hux. apply Hai. symmetry. eapply (H1 i a t u); [done..|by apply holds_x_holds].
  Qed.

  Definition still (s s' : st) : Prop := closed s = true -> closed s' = true /\ disk_of s' = disk_of s.
  Lemma still_refl s : still s s. Proof. done. Qed.
  Lemma wk_still s s' : wk s s' -> still s s'.
  Proof. intros [H1 H2] Hc. split; [congruence|by apply H2]. Qed.
  Lemma still_trans a b c : still a b -> still b c -> still a c.
  Proof. intros H1 H2 Hc. destruct (H1 Hc) as [Ha Ea]. destruct (H2 Ha) as [Hb Eb]. split; [done|congruence]. Qed.

  Lemma steps_wk_read {A} (f : st -> out A) : steps wk (act (fun s => (s, f s))).
  Proof. apply steps_act. intros s. apply wk_refl. Qed.

  (** A step under c.mu. *)
  Lemma kok_x s b s' b' c : xstep C s b s' b' -> kok (TX c b) -> (closed s = true -> frz (TX c b)) ->
    kok (TX c b') /\ still s s' /\ (closed s' = true -> frz (TX c b')).
  Proof.
    intros Hx Hk Hf. inversion Hx as [f ? ? p' Hp|f ? ? p' Hp|f ? ? p' Hp|two io ol ? r Hr Hne|io ol ? os Hr|io ol ? os Hr|two io ws ? ? ws' Hm|two io rs ? s1 r Hg Hw|two io rs ? e Hg]; subst; cbn [kok frz] in *.
    - cbn [steps] in Hk. specialize (Hk s). rewrite Hp in Hk. destruct Hk as [Hs Hk]. unfold sc in Hs.
      assert (closed s = true -> disk_of s' = disk_of s /\ fz p') as H.
      { intros Hc. specialize (Hf Hc). cbn [fz] in Hf. specialize (Hf s Hc). by rewrite Hp in Hf. }
      split; [done|]. split; [intros Hc; split; [congruence|by apply H]|]. intros Hc. apply H. congruence.
    - assert (p' = Done (snd (match Step f with Step g => match g s with Some (a, Done r) => (a, r) | _ => (s, Pan PFuel) end | _ => (s, Pan PFuel) end)) /\ still s s') as [Ep Hst].
      { destruct Hk as [E|[E|[r E]]]; [| |discriminate E]; injection E as ->; cbn in Hp.
        - destruct (closed s) eqn:Hc; injection Hp as <- <-; cbn; (split; [by rewrite ?Hc|]); unfold still; [done|congruence].
        - injection Hp as <- <-. cbn. split; [done|apply still_refl]. }
      split; [|by split]. right. right. rewrite Ep. by eexists.
    - cbn [steps] in Hk. specialize (Hk s). rewrite Hp in Hk. destruct Hk as [Hs Hk]. unfold sc in Hs.
      assert (closed s = true -> disk_of s' = disk_of s /\ fz p') as H.
      { intros Hc. specialize (Hf Hc). cbn [fz] in Hf. specialize (Hf s Hc). by rewrite Hp in Hf. }
      split; [done|]. split; [intros Hc; split; [congruence|by apply H]|]. intros Hc. apply H. congruence.
    - done.
    - split; [unfold batch_threads; apply Forall_fmap, Forall_true; intros; apply wk_worker|]. split; [done|].
      intros Hc. unfold batch_prepare in Hr. by rewrite Hc in Hr.
    - split; [unfold batch2_threads; apply Forall_fmap, Forall_true; intros; apply wk_worker2|]. split; [done|].
      intros Hc. unfold batch_prepare in Hr. cbn in Hc. by rewrite Hc in Hr.
    - destruct (steps_mstep wk _ _ Hm Hk) as [H1 H2]. cbn [fst snd] in *. split; [done|]. split; [by apply wk_still|].
      intros Hc. apply Hf. destruct H1 as [H1 _]. congruence.
    - split; [done|]. split; [|done]. intros Hc. by destruct (Hf Hc).
    - split; [done|]. split; [|done]. intros Hc. by destruct (Hf Hc).
  Qed.

  Lemma kinv_step m vs m' : estep C m vs m' -> kinv m -> kinv m' /\ still m.1.1 m'.1.1.
  Proof.
    intros Hs HK.
    inversion Hs as [s ts gs vs1 s' ts' Hc|s ts gs i ids Hi Hf Hg|s ts gs i o k Hi Hf Hg|s ts gs i c two io ws e Hi He|s ts gs j q ws s1 ws' Hj Hm]; subst; cbn [fst snd] in *.
    - inversion Hc as [? ? i t ? ? t' Hi Hcl]; subst. pose proof (Forall_lookup_1 _ _ _ _ (k_ok _ HK) Hi) as Hk. cbn [fst snd] in Hk.
      assert (Hfr : closed s = true -> frz t) by (intros E; apply (Forall_lookup_1 _ _ _ _ (k_frozen _ HK E) Hi)).
      assert (Hfree : forall u, ~ holds u -> kok u -> kinv (s, <[i := u]> ts, gs) /\ still s s).
      { intros u Hu Hku. split; [|apply still_refl]. eapply kinv_put; [done..| | |]; [by intros H|intros H; by destruct (Hu (holds_x_holds _ H))|].
        intros E. split; [|by left]. apply free_frz. intros H. by apply Hu, holds_x_holds. }
      inversion Hcl as [|? ? ? c b Hs1 Hf|? ? ? c b s1 b' Hx|? ? ? c b r Hx|? ? ? c b Hs1 Hf|? ? ? c b s1 b' Hy| | | | | | | | | | ? ? ? io id Hf| ]; subst;
        try (apply Hfree; [by intros []|exact I]).
      + split; [|apply still_refl]. eapply kinv_put; [done..| | | |].
        * destruct c; cbn [xstart] in Hs1; try done; injection Hs1 as <-; cbn [kok]; [apply sc_insert|done|done|by right; left|by left].
        * intros _. right. eapply Forall_impl; [exact Hf|]. intros u Hu Hux. by apply Hu, holds_x_holds.
        * intros _. by right.
        * intros E. split; [|by left]. destruct c; cbn [xstart] in Hs1; try done; injection Hs1 as <-; cbn [frz]; try done. apply fz_insert.
      + destruct (kok_x _ _ _ _ c Hx Hk Hfr) as (H1 & H2 & H3). split; [|done].
        eapply kinv_put; [done..| | |]; [by left|by left|]. intros E. split; [by apply H3|by right].
      + split; [|apply still_refl]. eapply kinv_put; [done..| | | |].
        * destruct c; cbn [rstart] in Hs1; try done; injection Hs1 as <-; cbn [kok]; [apply steps_wk_read|].
          refine (proj1 (R_search C wk wk_refl wk_search _ _)).
        * intros _. by right.
        * done.
        * intros E. split; [done|by left].
      + assert (kok (TR c b') /\ wk s s') as [H1 H2].
        { inversion Hy as [f ? ? p' Hp|f ? ? p' Hp]; subst; cbn [kok steps] in *; specialize (Hk s); rewrite Hp in Hk; by destruct Hk. }
        split; [|by apply wk_still]. eapply kinv_put; [done..| | |]; [by left|done|]. intros E. split; [done|]. left. destruct H2 as [H2 _]. congruence.
      + split; [|apply still_refl]. eapply kinv_put; [done..| | | |].
        * cbn [kok]. apply sc_delete_rest.
        * intros _. right. eapply Forall_impl; [exact Hf|]. intros u Hu Hux. by apply Hu, holds_x_holds.
        * intros _. by right.
        * intros E. split; [|by left]. cbn [frz]. apply fz_delete_rest.
    - split; [|apply still_refl]. eapply kinv_put; [done..| | | |].
      * cbn [kok]. apply steps_bind; [apply steps_wk_read|intros _]. apply (R_get_each C wk wk_refl).
      * intros _. by right.
      * done.
      * intros E. split; [done|by left].
    - split; [|apply still_refl]. eapply kinv_put; [done..| | | |].
      * cbn [kok]. refine (proj2 (R_search C wk wk_refl wk_search _ _)).
      * intros _. by right.
      * done.
      * intros E. split; [done|by left].
    - split; [|done]. pose proof (Forall_lookup_1 _ _ _ _ (k_ok _ HK) Hi) as Hk. cbn [kok] in Hk.
      assert (kinv (set_chan [] s, <[i := TX c (XEnd (RBatch (Err e) []))]> ts, gs)) as [H1 H2 H3 H4].
      { eapply kinv_put; [done..| | |]; [by left|by left|]. intros E. split; [done|by right]. }
      split; cbn [fst snd] in *; try done. apply Forall_app. split; [done|]. by constructor.
    - pose proof (Forall_lookup_1 _ _ _ _ (k_groups _ HK) Hj) as Hw. cbn [snd] in Hw. destruct (steps_mstep wk _ _ Hm Hw) as [H1 H2]. cbn [fst snd] in *.
      assert (wk s (set_chan (chan s) s1)) as Hwk. { eapply wk_trans; [apply (wk_chan s q)|]. eapply wk_trans; [exact H1|apply wk_chan]. }
      split; [|by apply wk_still]. destruct HK as [K1 K2 K3 K4]. split; cbn [fst snd] in *; [done|done|by apply Forall_insert|].
      intros E. apply K4. destruct Hwk as [Hwk _]. congruence.
  Qed.
  Lemma kinv_run m vs m' : erun C m vs m' -> kinv m -> kinv m' /\ still m.1.1 m'.1.1.
  Proof.
    induction 1 as [m|m v1 m1 v2 m2 _ IH Hs]; intros HK; [split; [done|apply still_refl]|].
    destruct (IH HK) as [HK1 H1]. destruct (kinv_step _ _ _ Hs HK1) as [HK2 H2]. split; [done|by eapply still_trans].
  Qed.

  (** ** Following one goroutine *)
  Inductive self_step (gs : list group) : st -> list client -> nat -> client -> list vis -> st -> client -> Prop :=
  | SelfCl s ts i t vs s' t' : cl_step C s ts i t vs s' t' -> self_step gs s ts i t vs s' t'
  | SelfGet s ts i ids : self_step gs s ts i (TCall (CGet ids)) [] s (TR (CGet ids) (YGet (get_steps C ids)))
  | SelfSearch s ts i o k : self_step gs s ts i (TCall (CSearch o k)) [] s (TR (CSearch o k) (YSearch (search_steps C 0 o k)))
  | SelfEarly s ts i c two io ws e : self_step gs s ts i (TX c (XWork two io ws)) [] (set_chan [] s) (TX c (XEnd (RBatch (Err e) []))).
  Lemma estep_self s ts gs vs s' ts' gs' i t : estep C (s, ts, gs) vs (s', ts', gs') -> ts !! i = Some t ->
    (exists t', ts' !! i = Some t' /\ self_step gs s ts i t vs s' t') \/ (ts' !! i = Some t /\ no_return i vs).
  Proof.
    intros He Hi. assert (Hnil : no_return i []) by (intros r Hin; by apply elem_of_nil in Hin).
    assert (Hin : forall u : client, <[i := u]> ts !! i = Some u) by (intros u; apply list_lookup_insert; by eapply lookup_lt_Some).
    inversion He as [? ? ? ? ? ? Hc|? ? ? k ids' Hk Hf' Hg|? ? ? k o' n Hk Hf' Hg|? ? ? k c two io ws e Hk He'|? ? ? j q ws s1 ws' Hj' Hm']; subst.
    - inversion Hc as [? ? k u ? ? u' Hk Hcl]; subst. destruct (decide (k = i)) as [->|Hne].
      + rewrite Hi in Hk. injection Hk as <-. left. exists u'. split; [apply Hin|by constructor].
      + right. split; [by rewrite list_lookup_insert_ne|]. inversion Hcl; subst; try done; intros r1 H1%elem_of_list_singleton; congruence.
    - destruct (decide (k = i)) as [->|Hne]; [|right; by rewrite list_lookup_insert_ne]. rewrite Hi in Hk. injection Hk as ->.
      left. eexists. split; [apply Hin|apply SelfGet].
    - destruct (decide (k = i)) as [->|Hne]; [|right; by rewrite list_lookup_insert_ne]. rewrite Hi in Hk. injection Hk as ->.
      left. eexists. split; [apply Hin|apply SelfSearch].
    - destruct (decide (k = i)) as [->|Hne]; [|right; by rewrite list_lookup_insert_ne]. rewrite Hi in Hk. injection Hk as ->.
      left. eexists. split; [apply Hin|apply SelfEarly].
    - right. by split.
  Qed.

  Section follow.
    Context (P : st -> client -> Prop) (Q : st -> reply -> Prop) (i : nat).
    Context (Hstill : forall s s' t, still s s' -> P s t -> P s' t).
    Context (Hself : forall gs s ts t vs s' t', self_step gs s ts i t vs s' t' -> still s s' -> P s t ->
      (vs = [] /\ P s' t') \/ (exists r, vs = [VRet i r] /\ Q s r)).
    Definition tracked (m : esys) : Prop := kinv m /\ exists t, m.1.2 !! i = Some t /\ P m.1.1 t.
    Lemma follow_step m vs m' : estep C m vs m' -> tracked m -> (no_return i vs /\ tracked m') \/ (exists r, vs = [VRet i r] /\ Q m.1.1 r /\ kinv m').
    Proof using Hstill Hself.
      intros Hs [HK (t & Hi & HP)]. destruct (kinv_step _ _ _ Hs HK) as [HK' Hst]. destruct m as [[s ts] gs], m' as [[s' ts'] gs']. cbn [fst snd] in *.
      destruct (estep_self _ _ _ _ _ _ _ _ _ Hs Hi) as [(t' & Hi' & Hse)|[Hi' Hno]].
      - destruct (Hself _ _ _ _ _ _ _ Hse Hst HP) as [[-> HP']|(r & -> & HQ)].
        + left. split; [intros r Hin; by apply elem_of_nil in Hin|]. split; [done|]. by exists t'.
        + right. by exists r.
      - left. split; [done|]. split; [done|]. exists t. split; [done|]. by eapply Hstill.
    Qed.
    Lemma follow_run m vs m' : erun C m vs m' -> no_return i vs -> tracked m -> tracked m'.
    Proof using Hstill Hself.
      induction 1 as [m|m v1 m1 v2 m2 _ IH Hs]; intros Hno Ht; [done|].
      destruct (follow_step _ _ _ Hs) as [[_ H]|(r & -> & _)]; [apply IH; [|done]; intros r Hr; apply (Hno r); set_solver|done|].
      exfalso. apply (Hno r). set_solver.
    Qed.
    (** A call from its beginning to its end. *)
    Lemma follow_call m c v r m' : kinv m -> P m.1.1 (TCall c) -> no_return i v -> erun C m (VCall i c :: v ++ [VRet i r]) m' ->
      exists m1, erun C m (VCall i c :: v) m1 /\ Q m1.1.1 r /\ kinv m1 /\ kinv m' /\ still m1.1.1 m'.1.1.
    Proof using Hstill Hself.
      intros HK HP Hno Hr. destruct (erun_split C _ _ _ [] _ _ Hr eq_refl) as (ma & mb & R1 & S1 & R2).
      destruct (kinv_run _ _ _ R1 HK) as [HKa Hsa]. apply (Hstill _ _ _ Hsa) in HP.
      destruct (erun_split C _ _ _ _ _ _ R2 eq_refl) as (mc & md & R3 & S3 & R4).
      assert (tracked mb) as Hb.
      { split; [by apply (kinv_step _ _ _ S1)|]. inversion S1 as [s1 ts1 gs1 w s1' ts1' Hcs| | | | ]; subst. inversion Hcs as [? ? k u ? ? u' Hk Hcl]; subst.
        inversion Hcl; subst. exists (TCall c). split; [|exact HP]. cbn. apply list_lookup_insert. by eapply lookup_lt_Some. }
      pose proof (follow_run _ _ _ R3 Hno Hb) as Hc. destruct (follow_step _ _ _ S3 Hc) as [[H _]|(r' & E & HQ & Hd)].
      { exfalso. apply (H r). by left. }
      injection E as <-. exists mc. destruct Hc as [Hkc _]. destruct (kinv_step _ _ _ S3 Hkc) as [_ Hs3]. destruct (kinv_run _ _ _ R4 Hd) as [HK4 Hs4].
      split_and!; [|done..|by eapply still_trans].
      change (VCall i c :: v) with (([] ++ [VCall i c]) ++ v). eapply erun_app; [|exact R3]. by eapply ERunSnoc.
    Qed.
  End follow.

  (** A goroutine that calls Close. *)
  Definition closer (s : st) (t : client) : Prop :=
    t = TCall CClose \/ t = TX CClose (XUnit close) \/
    exists r, (t = TX CClose (XUnit (Done r)) \/ t = TRet (RUnit r)) /\ (r = Val tt /\ closed s = true \/ r = Err EFileClosed).
  Definition close_answer (s : st) (r : reply) : Prop := r = RUnit (Val tt) /\ closed s = true \/ r = RUnit (Err EFileClosed).
  Lemma closer_still s s' t : still s s' -> closer s t -> closer s' t.
  Proof.
    intros H [->|[->|(r & Ht & Hr)]]; [by left|by right; left|]. right; right. exists r. split; [done|]. destruct Hr as [[-> Hr]| ->]; [left; split; [done|by apply H]|by right].
  Qed.
  Lemma closer_self i gs s ts t vs s' t' : self_step gs s ts i t vs s' t' -> still s s' -> closer s t ->
    (vs = [] /\ closer s' t') \/ (exists r, vs = [VRet i r] /\ close_answer s r).
  Proof.
    intros Hse Hst [->|[->|(r & [-> | ->] & Hr)]]; inversion Hse as [? ? ? ? ? ? ? Hcl| | | ]; subst.
    - inversion Hcl as [|? ? ? c b Hx| | |? ? ? c b Hy| | | | | | | | | | | | ]; subst; [|done]. cbn [xstart] in Hx. injection Hx as <-. left. split; [done|]. by right; left.
    - inversion Hcl as [| |? ? ? c b s1 b' Hx|? ? ? c b r Hx| | | | | | | | | | | | | ]; subst; [|done].
      inversion Hx as [|f ? ? p' Hp| | | | | | | ]; subst. left. split; [done|]. right; right. cbn in Hp.
      destruct (closed s) eqn:Hc; injection Hp as <- <-; eexists; (split; [by left|]); [by right|by left].
    - inversion Hcl as [| |? ? ? c b s1 b' Hx|? ? ? c b r' Hx| | | | | | | | | | | | | ]; subst; [by inversion Hx|].
      injection Hx as <-. left. split; [done|]. right; right. exists r. split; [by right|done].
    - inversion Hcl; subst. right. eexists. split; [done|]. destruct Hr as [[-> Hr]| ->]; [by left|by right].
  Qed.
  Lemma closed_after s n v1 i v2 m1 : erun C (s, replicate n TIdle, []) (v1 ++ VCall i CClose :: v2 ++ [VRet i (RUnit (Val tt))]) m1 -> no_return i v2 ->
    kinv m1 /\ closed m1.1.1 = true.
  Proof.
    intros Hr Hno. assert (exists ma, erun C (s, replicate n TIdle, []) v1 ma /\ erun C ma (VCall i CClose :: v2 ++ [VRet i (RUnit (Val tt))]) m1) as (ma & R1 & R2).
    { destruct (erun_split C _ _ _ _ _ _ Hr eq_refl) as (x1 & x2 & A1 & A2 & A3). exists x1. split; [done|].
      change (VCall i CClose :: v2 ++ [VRet i (RUnit (Val tt))]) with ([VCall i CClose] ++ v2 ++ [VRet i (RUnit (Val tt))]).
      eapply erun_app; [|exact A3]. apply (ERunSnoc _ _ [] x1); [constructor|done]. }
    destruct (kinv_run _ _ _ R1 (kinv_start s n)) as [HKa _].
    destruct (follow_call closer close_answer i closer_still) with (m := ma) (c := CClose) (v := v2) (r := RUnit (Val tt)) (m' := m1)
      as (x & _ & Hq & _ & HK & Hst); try done.
    - intros gs s0 ts t vs s' t'. apply closer_self.
    - by left.
    - split; [done|]. apply Hst. by destruct Hq as [[_ H]|[=]].
  Qed.

  (** A goroutine that calls a closed collection. *)
  Definition refused (c : call) (r : reply) : Prop :=
    match c with
    | CInsert _ _ _ => r = RIns (Err ECollectionClosed)
    | CBatch _ _ | CBatch2 _ _ => r = RBatch (Err ECollectionClosed) []
    | CDelete _ _ => r = RUnit (Val tt) \/ r = RUnit (Err EFileClosed)
    | CGet _ => r = RGet (Err ECollectionClosed)
    | CSearch _ _ => r = RSearch (Err ECollectionClosed)
    | CSize => r = RSize (Err ECollectionClosed)
    | CUpdate _ => r = RUnit (Err ECollectionClosed)
    | CClose => r = RUnit (Err EFileClosed)
    end.
  Definition once {A} (e : err_t) (p : prog st A) : Prop :=
    p = Done (Err e) \/ exists f, p = Step f /\ forall s, closed s = true -> f s = Some (s, Done (Err e)).
  Definition rfx (c : call) (b : xbody) : Prop :=
    match b with
    | XIns p => once ECollectionClosed p /\ refused c (RIns (Err ECollectionClosed))
    | XUnit p => (exists e, once e p /\ refused c (RUnit (Err e)))
    | XBatch _ _ _ => refused c (RBatch (Err ECollectionClosed) [])
    | XEnd r => refused c r
    | _ => False
    end.
  Definition rfy (c : call) (b : rbody) : Prop :=
    match b with
    | YGet p => once ECollectionClosed p /\ refused c (RGet (Err ECollectionClosed))
    | YSearch p => once ECollectionClosed p /\ refused c (RSearch (Err ECollectionClosed))
    end.
  Definition late (c : call) (s : st) (t : client) : Prop :=
    closed s = true /\ (t = TCall c \/ (exists b, t = TX c b /\ rfx c b) \/ (exists b, t = TR c b /\ rfy c b) \/ (exists r, t = TRet r /\ refused c r)).
  Lemma late_still c s s' t : still s s' -> late c s t -> late c s' t.
  Proof. intros H [Hc Ht]. split; [by apply H|done]. Qed.
  Lemma once_step {A} e f s s' (p' : prog st A) : once e (Step f) -> closed s = true -> f s = Some (s', p') -> s' = s /\ p' = Done (Err e).
  Proof. intros [H|(g & H & Hg)] Hc Hf; [done|]. injection H as <-. rewrite Hg in Hf by done. by injection Hf as <- <-. Qed.
  Lemma once_done {A} e (r : out A) : once e (Done r) -> r = Err e.
  Proof. intros [H|(g & H & Hg)]; [|done]. by injection H. Qed.
  Lemma once_check {A} (k : unit -> prog st A) : once ECollectionClosed (check_open ≫= k).
  Proof. right. eexists. split; [reflexivity|]. intros s Hc. cbn. by rewrite Hc. Qed.
  Lemma late_self c i gs s ts t vs s' t' : self_step gs s ts i t vs s' t' -> still s s' -> late c s t ->
    (vs = [] /\ late c s' t') \/ (exists r, vs = [VRet i r] /\ refused c r).
  Proof.
    intros Hse Hst [Hc Ht]. assert (Hc' : closed s' = true) by (by apply Hst).
    enough ((vs = [] /\ (t' = TCall c \/ (exists b, t' = TX c b /\ rfx c b) \/ (exists b, t' = TR c b /\ rfy c b) \/ (exists r, t' = TRet r /\ refused c r))) \/
      (exists r, vs = [VRet i r] /\ refused c r)) as Hgoal.
    { destruct Hgoal as [[-> H]|H]; [left; split; [done|by split]|by right]. }
    destruct Ht as [->|[(b & -> & Hb)|[(b & -> & Hb)|(r & -> & Hr)]]].
    - left. inversion Hse as [? ? ? ? ? ? ? Hcl|? ? ? ids|? ? ? o k| ]; subst.
      + inversion Hcl as [|? ? ? c1 b Hx| | |? ? ? c1 b Hy| | |? ? ? r Hx| | | | | | | | | ]; subst; (split; [done|]).
        * right; left. exists b. split; [done|]. destruct c; cbn [xstart] in Hx; try discriminate Hx; injection Hx as <-; cbn [rfx refused].
          -- split; [apply once_check|done].
          -- done.
          -- done.
          -- exists ECollectionClosed. split; [|done]. right. eexists. split; [reflexivity|]. intros s1 H1. cbn. by rewrite H1.
          -- exists EFileClosed. split; [|done]. right. eexists. split; [reflexivity|]. intros s1 H1. cbn. by rewrite H1.
        * right; right; left. exists b. split; [done|]. destruct c; cbn [rstart] in Hy; try discriminate Hy; injection Hy as <-; cbn [rfy refused]; (split; [|done]).
          -- right. eexists. split; [reflexivity|]. intros s1 H1. cbn. by rewrite H1.
          -- apply once_check.
        * right; right; right. eexists. split; [done|]. cbn. unfold get_size in Hx. rewrite exec_act, Hc in Hx. apply Some_pair_inj in Hx as [_ <-]. done.
        * congruence.
        * right; right; right. eexists. split; [done|]. by left.
        * right; right; right. eexists. split; [done|]. by right.
      + split; [done|]. right; right; left. eexists. split; [done|]. split; [|done]. apply once_check.
      + split; [done|]. right; right; left. eexists. split; [done|]. split; [|done]. apply once_check.
    - inversion Hse as [? ? ? ? ? ? ? Hcl| | |]; subst; [|done].
      left. inversion Hcl as [| |? ? ? c1 b1 s1 b' Hx|? ? ? c1 b1 r Hx| | | | | | | | | | | | | ]; subst; (split; [done|]).
      + right; left. exists b'. split; [done|].
        inversion Hx as [f ? ? p' Hp|f ? ? p' Hp|f ? ? p' Hp|two io ol ? r Hr Hne|io ol ? os Hr|io ol ? os Hr|two io ws ? ? ws' Hm|two io rs ? s1 r Hg Hw|two io rs ? e Hg]; subst; cbn [rfx] in *; try done.
        * destruct Hb as [Ho Hr]. destruct (once_step _ _ _ _ _ Ho Hc Hp) as [-> ->]. split; [by left|done].
        * destruct Hb as (e & Ho & Hr). destruct (once_step _ _ _ _ _ Ho Hc Hp) as [-> ->]. exists e. split; [by left|done].
        * unfold batch_prepare. by rewrite Hc.
        * unfold batch_prepare in Hr. by rewrite Hc in Hr.
        * unfold batch_prepare in Hr. by rewrite Hc in Hr.
      + right; right; right. exists r. split; [done|]. destruct b as [[r0|]|[r0|]|[r0|]|?|?|r0]; cbn [rfx xreply] in *; try done; injection Hx as <-.
        * destruct Hb as [Ho Hr]. by apply once_done in Ho as ->.
        * destruct Hb as (e & Ho & Hr). by apply once_done in Ho as ->.
        * done.
    - inversion Hse as [? ? ? ? ? ? ? Hcl| | |]; subst.
      left. inversion Hcl as [| | | | |? ? ? c1 b1 s1 b' Hx|? ? ? c1 b1 r Hx| | | | | | | | | | ]; subst; (split; [done|]).
      + right; right; left. exists b'. split; [done|].
        inversion Hx as [f ? ? p' Hp|f ? ? p' Hp]; subst; cbn [rfy] in *; destruct Hb as [Ho Hr]; destruct (once_step _ _ _ _ _ Ho Hc Hp) as [-> ->]; (split; [by left|done]).
      + right; right; right. exists r. split; [done|]. destruct b as [[r0|]|[r0|]]; cbn [rfy yreply] in *; try done; injection Hx as <-;
          destruct Hb as [Ho Hr]; by apply once_done in Ho as ->.
    - inversion Hse as [? ? ? ? ? ? ? Hcl| | |]; subst. inversion Hcl; subst. right. by exists r.
  Qed.
End close.
