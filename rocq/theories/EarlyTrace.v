(** Runs with workers that outlive their batch call: relations that every step
    keeps, what a reader sees, and executing such runs. *)
From stdpp Require Import relations.
From Verif Require Import GoBase FloatModel HeapModel ProgModel StateModel WalModel HnswModel StoreModel CollModel CallModel LinModel EarlyModel
  ProofBase CodecProofs WpProofs StepProofs StoreProofs StoreView WalProofs CallProofs HistRun LinProofs LinTrace LinRun PropLin EarlyProofs EarlyRun.
Open Scope nat_scope.
Local Arguments id_key _ : simpl never.

Section run.
  Context (C : cparams).

  Lemma erun_app m vs m1 vs' m2 : erun C m vs m1 -> erun C m1 vs' m2 -> erun C m (vs ++ vs') m2.
  Proof. intros H1. induction 1 as [|m1 v1 m3 v2 m4 _ IH Hs]; [by rewrite app_nil_r|]. rewrite app_assoc. by eapply ERunSnoc; [apply IH|]. Qed.
  Lemma con_erun m vs m' gs : con_run C m vs m' -> erun C (m, gs) vs (m', gs).
  Proof.
    induction 1 as [|m v1 [s1 ts1] v2 [s2 ts2] _ IH Hs]; [constructor|]. eapply ERunSnoc; [exact IH|]. by constructor.
  Qed.
  Lemma erun_split m vs m' v1 v v2 : erun C m vs m' -> vs = v1 ++ v :: v2 ->
    exists m1 m2, erun C m v1 m1 /\ estep C m1 [v] m2 /\ erun C m2 v2 m'.
  Proof.
    intros Hr. revert v2. induction Hr as [m|m w1 m1 w2 m2 Hr IH Hs]; intros v2 E; [by destruct v1|].
    assert (length w2 <= 1) as Hl. { inversion Hs as [? ? ? ? ? ? Hc| | | | ]; subst; try (cbn; lia). inversion Hc as [? ? ? ? ? ? ? _ Hcl]; subst. inversion Hcl; cbn; lia. }
    destruct w2 as [|w [|? ?]]; [| |cbn in Hl; lia].
    - rewrite app_nil_r in E. destruct (IH v2 E) as (m3 & m4 & H1 & H2 & H3). exists m3, m4. split_and!; [done..|]. rewrite <- (app_nil_r v2). by eapply ERunSnoc.
    - destruct v2 as [|u v2 _] using rev_ind.
      + apply app_inj_tail in E as [-> ->]. exists m1, m2. split_and!; [done..|constructor].
      + assert (w1 = v1 ++ v :: v2 /\ w = u) as [-> ->]. { rewrite app_comm_cons, app_assoc in E. by apply app_inj_tail in E. }
        destruct (IH v2 eq_refl) as (m3 & m4 & H1 & H2 & H3). exists m3, m4. split_and!; [done..|]. by eapply ERunSnoc.
  Qed.

  (** ** Relations that every step keeps *)
  Section rel.
    Context (R : st -> st -> Prop) (Rrefl : forall s, R s s) (Rtrans : forall a b c, R a b -> R b c -> R a c).
    Context (Rchan : forall s q, R s (set_chan q s)) (Rflush : forall io s, R s (fst (wal_flush io s))).
    Context (Rins : forall io level o, steps R (CollModel.insert C 0 io level o)).
    Context (Rw : forall tid os, steps R (worker C tid os)) (Rw2 : forall n tid, steps R (worker2 C n tid)).
    Context (Rdel : forall io id, steps R (delete_rest io id)) (Rclose : steps R close).
    Context (Rsearch : forall v k, steps R (hnsw_search (cp_h C) 0 (cp_fuel C) v k)).

    Definition rok (t : client) : Prop :=
      match t with
      | TX _ (XIns p) => steps R p
      | TX _ (XUnit p) | TX _ (XDel p) => steps R p
      | TX _ (XWork _ _ ws) => Forall (steps R) ws
      | TR _ (YGet p) => steps R p
      | TR _ (YSearch p) => steps R p
      | _ => True
      end.
    Definition rgs (gs : list group) : Prop := Forall (fun g => Forall (steps R) g.2) gs.
    Lemma R_read {A} (f : st -> out A) : steps R (act (fun s => (s, f s))).
    Proof using Rrefl. apply steps_act. intros s. apply Rrefl. Qed.
    Lemma R_get_each ids : steps R (get_each C ids).
    Proof using Rrefl.
      induction ids as [|id ids IH]; [done|]. cbn [get_each]. apply steps_bind; [apply R_read|intros ob].
      apply steps_bind; [destruct ob; [apply R_read|done]|intros o]. by apply steps_bind.
    Qed.
    Lemma R_search o k : steps R (semantic_search C 0 o k) /\ steps R (search_steps C 0 o k).
    Proof using Rrefl Rsearch.
      split; (apply steps_bind; [apply R_read|intros _]); (apply steps_bind; [done|]); (intros [|o' [|? ?]]; [done| |done]);
        (apply steps_bind; [apply Rsearch|intros es]).
      - apply steps_bind; [apply R_read|intros os]. by apply steps_bind.
      - apply steps_bind; [apply R_get_each|intros os]. by apply steps_bind.
    Qed.
    Lemma R_drop two s : R s (drop_chan two s).
    Proof using Rrefl Rchan. destruct two; [apply Rchan|apply Rrefl]. Qed.

    Lemma rok_cl s ts i t vs s' t' : cl_step C s ts i t vs s' t' -> rok t -> R s s' /\ rok t'.
    Proof using Rrefl Rtrans Rchan Rflush Rins Rw Rw2 Rdel Rclose Rsearch.
      intros Hcl Ht. pose proof Rrefl as Hre.
      inversion Hcl as [|? ? ? c b Hs Hf|? ? ? c b s1 b' Hx|? ? ? c b r Hx|? ? ? c b Hs Hf|? ? ? c b s1 b' Hy| | | | | | | | | | | ]; subst; try (by split).
      - split; [done|]. destruct c; cbn [xstart] in Hs; try done; injection Hs as <-; cbn [rok]; first [done|apply Rins|apply R_read|apply Rclose].
      - inversion Hx; subst; cbn [rok] in *.
        1-3: cbn [steps] in Ht; specialize (Ht s); by rewrite H in Ht.
        + done.
        + split; [done|]. unfold batch_threads. apply Forall_fmap, Forall_true. intros. apply Rw.
        + split; [apply Rchan|]. unfold batch2_threads. apply Forall_fmap, Forall_true. intros. apply Rw2.
        + by apply (steps_mstep R _ _ H).
        + split; [|done]. eapply Rtrans; [|apply R_drop]. replace s'0 with (fst (wal_flush io s)) by (by rewrite H0). apply Rflush.
        + split; [|done]. apply R_drop.
      - split; [done|]. destruct c; cbn [rstart] in Hs; try done; injection Hs as <-; cbn [rok]; [apply R_read|apply R_search].
      - inversion Hy; subst; cbn [rok steps] in *; specialize (Ht s); by rewrite H in Ht.
      - split; [done|]. apply Rdel.
    Qed.
    Lemma erun_rel m vs m' : erun C m vs m' -> Forall rok m.1.2 -> rgs m.2 -> R m.1.1 m'.1.1 /\ Forall rok m'.1.2 /\ rgs m'.2.
    Proof using Rrefl Rtrans Rchan Rflush Rins Rw Rw2 Rdel Rclose Rsearch.
      induction 1 as [m|m v1 m1 v2 m2 _ IH Hs]; intros Ht Hg; [by split_and!|]. destruct (IH Ht Hg) as (HR & HT & HG). clear IH Ht Hg.
      enough (R m1.1.1 m2.1.1 /\ Forall rok m2.1.2 /\ rgs m2.2) as (H1 & H2 & H3) by (split_and!; [by eapply Rtrans|done..]). clear HR.
      inversion Hs as [s ts gs vs1 s' ts' Hc|s ts gs i ids Hi Hf Hg|s ts gs i o k Hi Hf Hg|s ts gs i c two io ws e Hi He|s ts gs j q ws s1 ws' Hj Hm]; subst; cbn [fst snd] in *.
      - inversion Hc as [? ? i t ? ? t' Hi Hcl]; subst. destruct (rok_cl _ _ _ _ _ _ _ Hcl) as [H1 H2]; [by apply (Forall_lookup_1 _ _ _ _ HT Hi)|].
        split_and!; [done|by apply Forall_insert|done].
      - split_and!; [done| |done]. apply Forall_insert; [done|]. cbn [rok]. apply steps_bind; [apply R_read|intros _]. apply R_get_each.
      - split_and!; [done| |done]. apply Forall_insert; [done|]. cbn [rok]. apply R_search.
      - split_and!; [apply Rchan|by apply Forall_insert|]. apply Forall_app. split; [done|]. constructor; [|constructor]. apply (Forall_lookup_1 _ _ _ _ HT Hi).
      - pose proof (Forall_lookup_1 _ _ _ _ HG Hj) as Hw. cbn [snd] in Hw. destruct (steps_mstep R _ _ Hm Hw) as [H1 H2]. cbn [fst snd] in *.
        split_and!; [|done|by apply Forall_insert]. eapply Rtrans; [apply Rchan|]. eapply Rtrans; [exact H1|apply Rchan].
    Qed.
  End rel.

  Lemma wr_delete_rest io id : steps wal_rel (delete_rest io id).
  Proof.
    unfold delete_rest. apply steps_bind; [apply steps_act; intros s; destruct (closed s); by apply wal_rel_same|intros _].
    apply steps_bind; [|intros _; apply wr_flush]. unfold hnsw_delete. destruct (enc_delete id) as [r| |]; [|done..].
    apply steps_act. intros s. cbn [fst]. eapply wal_rel_trans; [apply (wal_rel_append r)|by apply wal_rel_same].
  Qed.
  Lemma erun_wal s n vs s' ts' gs' : erun C (s, replicate n TIdle, []) vs (s', ts', gs') -> wal_rel s s'.
  Proof.
    intros Hr. refine (proj1 (erun_rel wal_rel wal_rel_refl wal_rel_trans _ _ _ _ _ _ _ _ _ _ _ Hr _ _)); cbn [fst snd].
    - intros s1 q. by apply wal_rel_same.
    - apply wal_rel_flush.
    - apply wr_insert.
    - apply wr_worker.
    - apply wr_worker2.
    - apply wr_delete_rest.
    - apply steps_act. intros s1. destruct (closed s1); by apply wal_rel_same.
    - intros. apply steps_search, wal_rel_idx.
    - apply Forall_replicate. done.
    - constructor.
  Qed.

  (** ** What a reader sees *)
  Definition with_vec (o : object) : object := Object (o_id o) (o_props o) (Some (default [] (o_vec o))).
  Section sees.
    Context (o : object) (Hm : (cp_maxval C < 2 ^ 32)%N) (Hj : json_ok (cp_json C) (o_props o)) (Hf : Forall (fun f => (f < 2 ^ 32)%N) (default [] (o_vec o))).
    Notation swp := (wp (fun (_ : unit) s s1 => stored C s o -> stored C s1 o) (fun _ s _ s' => s' = s) (fun _ _ => True)).
    Definition sees (p : prog st (list object)) : Prop := forall s, stored C s o -> swp p (fun _ r _ => forall os, r = Val os -> with_vec o ∈ os) tt s.
    Lemma sees_get_object s : stored C s o -> closed s = false -> get_object (cp_json C) s (o_id o) = Val (Some (with_vec o)).
    Proof using Hm Hj Hf. intros Hs Hc. by apply (stored_get C s o Hs Hc Hm Hj). Qed.
    Lemma stored_bytes s : stored C s o -> exists ob vb, objs s !! id_key (o_id o) = Some ob /\ vecs s !! id_key (o_id o) = Some vb /\
      ser_props (cp_json C) (o_props o) = Val ob /\ ser_vec (vec_or_nil o) = Val vb.
    Proof. intros (ob & vb & ? & ? & ? & ? & _). by exists ob, vb. Qed.
    Lemma sees_get ids : o_id o ∈ ids -> sees (CollModel.get C ids).
    Proof using Hm Hj Hf.
      intros Hin s Hs. unfold CollModel.get. apply wp_act. intros s1 Hs1. specialize (Hs1 Hs). exists tt. split; [done|]. intros s3 _ os. cbn [fst snd].
      destruct (closed s1) eqn:Ec; [done|]. intros E. eapply get_objects_has; [exact E|exact Hin|]. by apply sees_get_object.
    Qed.
    Lemma de_stored ob vb : ser_props (cp_json C) (o_props o) = Val ob -> ser_vec (vec_or_nil o) = Val vb ->
      forall s, stored C s o -> (p ← de_props (cp_json C) ob; v ← de_vec vb; Val (Some (Object (o_id o) p (Some v)))) = Val (Some (with_vec o)).
    Proof using Hm Hj Hf.
      intros E1 E2 s Hs. set (s1 := St (ep s) (maxl s) (nodes s) (deleted s) (once s) (batch s) (wseq s) (wlog s) (cnt s) (cfile s) (objs s) (vecs s) (chan s) false).
      assert (stored C s1 o) as Hs1 by done. pose proof (sees_get_object s1 Hs1 eq_refl) as Hg. unfold get_object in Hg.
      destruct (stored_bytes _ Hs1) as (ob' & vb' & H1 & H2 & H3 & H4). rewrite H1, H2 in Hg. change (closed s1) with false in Hg. rewrite E1 in H3. rewrite E2 in H4. apply Val_inj in H3, H4. subst ob' vb'. exact Hg.
    Qed.
    Lemma get_each_sees ids : forall s, stored C s o ->
      swp (get_each C ids) (fun _ r s' => forall os, r = Val os -> o_id o ∈ ids -> with_vec o ∈ os) tt s.
    Proof using Hm Hj Hf.
      assert (Hre : forall (x : unit) s, stored C s o -> stored C s o) by done.
      induction ids as [|id ids IH]; intros s Hs; cbn [get_each].
      { apply wp_ret. intros s1 _ os _ Hin. by apply elem_of_nil in Hin. }
      apply (wp_bind _ _ _ Hre), wp_act. intros s1 H1. specialize (H1 Hs). exists tt. split; [done|]. cbn [fst snd]. intros s2 H2. specialize (H2 H1).
      assert (Htail : forall x s3, stored C s3 o -> (id = o_id o -> x = Some (with_vec o)) ->
        swp (os ← get_each C ids; mret (match x with Some y => y :: os | None => os end))
          (fun _ r _ => forall os, r = Val os -> o_id o ∈ id :: ids -> with_vec o ∈ os) tt s3).
      { intros x s3 H3 Hx. apply (wp_bind _ _ _ Hre). eapply wp_mono; [|by apply IH]. cbn beta. intros [] r s4 Hr.
        destruct r as [os|e|z]; [|done..]. apply wp_ret. intros s5 _ os' [= <-] [E|Hin]%elem_of_cons.
        - rewrite Hx by done. by left.
        - specialize (Hr os eq_refl Hin). destruct x; [by right|done]. }
      destruct (objs s1 !! id_key id) as [ob|] eqn:Eo.
      - destruct (closed s1); [done|]. apply (wp_bind _ _ _ Hre), wp_act. intros s3 H3. specialize (H3 H2). exists tt. split; [done|]. cbn [fst snd]. intros s4 H4. specialize (H4 H3).
        destruct (vecs s3 !! id_key id) as [vb|] eqn:Ev.
        + destruct (closed s3); [done|].
          assert (Hd : id = o_id o -> (p ← de_props (cp_json C) ob; v ← de_vec vb; Val (Some (Object id p (Some v)))) = Val (Some (with_vec o))).
          { intros ->. destruct (stored_bytes _ H1) as (ob1 & vb1 & A1 & _ & A3 & _). destruct (stored_bytes _ H3) as (ob2 & vb2 & _ & B2 & _ & B4).
            simplify_eq. by apply (de_stored _ _ A3 B4 s3). }
          destruct (p ← de_props (cp_json C) ob; v ← de_vec vb; Val (Some (Object id p (Some v)))) as [x|e|z]; [|done..].
          apply Htail; [done|]. intros E. specialize (Hd E). by injection Hd.
        + apply (Htail None); [done|]. intros ->. destruct (stored_bytes _ H3) as (? & ? & _ & ? & _). congruence.
      - apply (wp_bind _ _ _ Hre), wp_ret. intros s3 H3. specialize (H3 H2). apply (Htail None); [done|].
        intros ->. destruct (stored_bytes _ H1) as (? & ? & ? & _). congruence.
    Qed.
    Lemma sees_get_steps ids : o_id o ∈ ids -> sees (get_steps C ids).
    Proof using Hm Hj Hf.
      intros Hin s Hs. unfold get_steps, check_open. assert (Hre : forall (x : unit) s, stored C s o -> stored C s o) by done.
      apply (wp_bind _ _ _ Hre), wp_act. intros s1 H1. specialize (H1 Hs). exists tt. split; [done|]. cbn [fst snd]. intros s2 H2. specialize (H2 H1).
      destruct (closed s1); [done|]. eapply wp_mono; [|by apply get_each_sees]. cbn beta. auto.
    Qed.
    Lemma sees_step f s s' p : sees (Step f) -> stored C s o -> f s = Some (s', p) -> sees p.
    Proof.
      intros Hw Hs Hf'. specialize (Hw s Hs s (fun H => H)). rewrite Hf' in Hw. destruct Hw as ([] & -> & Hw).
      intros s1 H1. eapply wp_env; [|  |exact Hw]; [|done]. intros ? ? ? ?; auto.
    Qed.
    Lemma sees_done r s : sees (Done r) -> stored C s o -> forall os, r = Val os -> with_vec o ∈ os.
    Proof. intros Hw Hs. by apply (Hw s Hs s). Qed.

    (** A goroutine that has called Get for the object. *)
    Definition reader (ids : list N) (t : client) : Prop :=
      t = TCall (CGet ids) \/ (exists p, t = TR (CGet ids) (YGet p) /\ sees p) \/ (exists r, t = TRet (RGet r) /\ forall os, r = Val os -> with_vec o ∈ os).
    Lemma reader_cl ids s ts i t vs s' t' : o_id o ∈ ids -> stored C s o -> cl_step C s ts i t vs s' t' -> reader ids t ->
      (vs = [] /\ reader ids t') \/ (exists r, vs = [VRet i (RGet r)] /\ forall os, r = Val os -> with_vec o ∈ os).
    Proof using Hm Hj Hf.
      intros Hid Hs Hcl [->|[(p & -> & Hp)|(r & -> & Hr)]].
      - inversion Hcl as [|? ? ? c b Hx| | |? ? ? c b Hy| | | | | | | | | | | | ]; subst; [done|]. cbn in Hy. injection Hy as <-.
        left. split; [done|]. right; left. eexists. split; [done|]. by apply sees_get.
      - inversion Hcl as [| | | | |? ? ? c b s1 b' Hy|? ? ? c b r Hy| | | | | | | | | | ]; subst.
        + inversion Hy as [f ? ? p' Hf'|]; subst. left. split; [done|]. right; left. eexists. split; [done|]. by eapply sees_step.
        + left. split; [done|]. destruct p as [r0|]; [|done]. injection Hy as <-. right; right. eexists. split; [done|]. by eapply sees_done.
      - inversion Hcl; subst. right. by eexists.
    Qed.
    Lemma reader_step ids s ts gs vs s' ts' gs' i t : o_id o ∈ ids -> stored C s o -> estep C (s, ts, gs) vs (s', ts', gs') -> ts !! i = Some t -> reader ids t ->
      (no_return i vs /\ exists t', ts' !! i = Some t' /\ reader ids t') \/
      (exists r, vs = [VRet i (RGet r)] /\ forall os, r = Val os -> with_vec o ∈ os).
    Proof using Hm Hj Hf.
      intros Hid Hs He Hi Hr. assert (Hnil : no_return i []) by (intros r Hin; by apply elem_of_nil in Hin).
      inversion He as [? ? ? ? ? ? Hc|? ? ? k ids' Hk Hf' Hg|? ? ? k o' n Hk Hf' Hg|? ? ? k c two io ws e Hk He'|? ? ? j q ws s1 ws' Hj' Hm']; subst.
      - inversion Hc as [? ? k u ? ? u' Hk Hcl]; subst. destruct (decide (k = i)) as [->|Hne].
        + rewrite Hi in Hk. injection Hk as <-. destruct (reader_cl _ _ _ _ _ _ _ _ Hid Hs Hcl Hr) as [[-> H]|H]; [|by right].
          left. split; [done|]. exists u'. split; [|done]. apply list_lookup_insert. by eapply lookup_lt_Some.
        + left. split.
          * inversion Hcl; subst; try done; intros r1 Hin%elem_of_list_singleton; congruence.
          * exists t. by rewrite list_lookup_insert_ne.
      - left. split; [done|]. destruct (decide (k = i)) as [->|Hne]; [|exists t; by rewrite list_lookup_insert_ne].
        rewrite Hi in Hk. injection Hk as ->. destruct Hr as [[= ->]|[(? & ? & _)|(? & ? & _)]]; [|done..].
        eexists. split; [apply list_lookup_insert; by eapply lookup_lt_Some|]. right; left. eexists. split; [done|]. by apply sees_get_steps.
      - left. split; [done|]. destruct (decide (k = i)) as [->|Hne]; [|exists t; by rewrite list_lookup_insert_ne].
        rewrite Hi in Hk. injection Hk as ->. by destruct Hr as [?|[(? & ? & _)|(? & ? & _)]].
      - left. split; [done|]. destruct (decide (k = i)) as [->|Hne]; [|exists t; by rewrite list_lookup_insert_ne].
        rewrite Hi in Hk. injection Hk as ->. by destruct Hr as [?|[(? & ? & _)|(? & ? & _)]].
      - left. split; [done|]. by exists t.
    Qed.
  End sees.

  (** ** Without an early return *)
  Definition batch_failed (t : client) : Prop := exists e rs, t = TRet (RBatch (Err e) rs) \/ exists c, t = TX c (XEnd (RBatch (Err e) rs)).
  Lemma erun_con s n vs s' ts' gs' : erun C (s, replicate n TIdle, []) vs (s', ts', gs') ->
    (forall i e rs, VRet i (RBatch (Err e) rs) ∉ vs) -> Forall (fun t => ~ batch_failed t) ts' ->
    gs' = [] /\ con_run C (s, replicate n TIdle) vs (s', ts').
  Proof.
    intros Hr. remember (s, replicate n TIdle, []) as m eqn:Em. remember (s', ts', gs') as m' eqn:Em'.
    revert s' ts' gs' Em'. induction Hr as [m|m v1 [[s1 ts1] gs1] v2 m2 Hr IH Hs]; intros s' ts' gs' -> Hv Hb.
    - injection Em as -> -> ->. split; [done|constructor].
    - assert (Hv1 : forall i e rs, VRet i (RBatch (Err e) rs) ∉ v1) by (intros i e rs Hin; apply (Hv i e rs); set_solver).
      inversion Hs as [? ? ? ? ? ? Hc|? ? ? k ids' Hk Hf' Hg|? ? ? k o' n' Hk Hf' Hg|? ? ? k c two io ws e Hk He'|? ? ? j q ws s2 ws' Hj' Hm']; subst.
      + assert (Hb1 : Forall (fun t => ~ batch_failed t) ts1).
        { inversion Hc as [? ? k u ? ? u' Hk Hcl]; subst. apply Forall_lookup. intros j t Hj. destruct (decide (j = k)) as [->|Hne].
          - rewrite Hk in Hj. injection Hj as ->. pose proof (Forall_lookup_1 _ _ _ _ Hb (list_lookup_insert _ _ u' (lookup_lt_Some _ _ _ Hk))) as Hu'.
            intros (e & rs & [->|(c & ->)]).
            + inversion Hcl; subst. apply (Hv k e rs). set_solver.
            + inversion Hcl as [| |? ? ? ? ? ? ? Hx|? ? ? ? ? ? Hx| | | | | | | | | | | | | ]; subst; [by inversion Hx|]. cbn in Hx. injection Hx as <-. apply Hu'. eexists _, _. by left.
          - apply (Forall_lookup_1 _ _ j t Hb). by rewrite list_lookup_insert_ne. }
        destruct (IH eq_refl _ _ _ eq_refl Hv1 Hb1) as [-> Hcr]. split; [done|]. by eapply ConSnoc.
      + exfalso. assert (Hb1 : Forall (fun t => ~ batch_failed t) ts1).
        { apply Forall_lookup. intros j t Hj. destruct (decide (j = k)) as [->|Hne].
          - rewrite Hk in Hj. injection Hj as <-. intros (? & ? & [?|(? & ?)]); done.
          - apply (Forall_lookup_1 _ _ j t Hb). by rewrite list_lookup_insert_ne. }
        by destruct (IH eq_refl _ _ _ eq_refl Hv1 Hb1) as [-> _].
      + exfalso. assert (Hb1 : Forall (fun t => ~ batch_failed t) ts1).
        { apply Forall_lookup. intros j t Hj. destruct (decide (j = k)) as [->|Hne].
          - rewrite Hk in Hj. injection Hj as <-. intros (? & ? & [?|(? & ?)]); done.
          - apply (Forall_lookup_1 _ _ j t Hb). by rewrite list_lookup_insert_ne. }
        by destruct (IH eq_refl _ _ _ eq_refl Hv1 Hb1) as [-> _].
      + exfalso. refine (Forall_lookup_1 _ _ k _ Hb (list_lookup_insert _ _ _ (lookup_lt_Some _ _ _ Hk)) _). eexists _, _. right. by eexists.
      + destruct (IH eq_refl _ _ _ eq_refl Hv1 Hb) as [-> _]. done.
  Qed.

  (** ** Executing runs *)
  Inductive emove :=
  | MGo (n i : nat) (c : call) (k : nat)          (* as in con_exec *)
  | MGet (i : nat)                                (* goroutine [i] starts its Get, to be read by read *)
  | MEarly (i : nat) (e : err_t)                  (* the batch of goroutine [i] returns early *)
  | MGroup (n j k : nat).                         (* worker [k] left behind by batch [j] takes up to [n] steps *)
  Fixpoint group_go (n j k : nat) (m : esys) : esys :=
    match n with
    | O => m
    | S n' =>
        let '(s, ts, gs) := m in
        match gs !! j with
        | Some (q, ws) =>
            match sched_step (set_chan q s, ws) k with
            | Some (s1, ws') => group_go n' j k (set_chan (chan s) s1, ts, <[j := (chan s1, ws')]> gs)
            | None => m
            end
        | None => m
        end
    end.
  Definition is_cancel (e : err_t) : bool := match e with ECanceled => true | _ => false end.
  Fixpoint has_err (ws : list (prog st (list object))) : option err_t :=
    match ws with
    | [] => None
    | Done (Err e) :: _ => Some e
    | _ :: ws' => has_err ws'
    end.
  Lemma has_err_in ws e : has_err ws = Some e -> Done (Err e) ∈ ws.
  Proof. induction ws as [|p ws IH]; [done|]. cbn. destruct p as [[a|e'|z]|f]; try (intros H; right; by apply IH). intros [= ->]. by left. Qed.
  Definition e_move (mv : emove) (m : esys) : option (list vis * esys) :=
    let '(s, ts, gs) := m in
    match mv with
    | MGo n i c k => match go C n i c k (s, ts) with Some (vs, m') => Some (vs, (m', gs)) | None => None end
    | MGet i =>
        match ts !! i, gs with
        | Some (TCall (CGet ids)), _ :: _ => if free_x ts then Some ([], (s, <[i := TR (CGet ids) (YGet (get_steps C ids))]> ts, gs)) else None
        | _, _ => None
        end
    | MEarly i e =>
        match ts !! i with
        | Some (TX c (XWork two io ws)) =>
            if is_cancel e then Some ([], (set_chan [] s, <[i := TX c (XEnd (RBatch (Err e) []))]> ts, gs ++ [(chan s, ws)]))
            else match has_err ws with
                 | Some e' => Some ([], (set_chan [] s, <[i := TX c (XEnd (RBatch (Err e') []))]> ts, gs ++ [(chan s, ws)]))
                 | None => None
                 end
        | _ => None
        end
    | MGroup n j k => Some ([], group_go n j k m)
    end.
  Fixpoint e_exec (mvs : list emove) (m : esys) : option (list vis * esys) :=
    match mvs with
    | [] => Some ([], m)
    | mv :: mvs' =>
        match e_move mv m with
        | Some (vs, m') => match e_exec mvs' m' with Some (vs', m'') => Some (vs ++ vs', m'') | None => None end
        | None => None
        end
    end.
  Lemma estep_erun m vs m' : estep C m vs m' -> erun C m vs m'.
  Proof. intros H. apply (ERunSnoc C m [] m vs m'); [constructor|done]. Qed.
  Lemma group_go_run n j k m : erun C m [] (group_go n j k m).
  Proof.
    revert m. induction n as [|n IH]; intros [[s ts] gs]; [constructor|]. cbn [group_go].
    destruct (gs !! j) as [[q ws]|] eqn:Ej; [|constructor]. destruct (sched_step (set_chan q s, ws) k) as [[s1 ws']|] eqn:Es; [|constructor].
    apply (erun_app _ [] _ []  _ (estep_erun _ _ _ (EsGroup C s ts gs j q ws s1 ws' Ej ltac:(
      unfold sched_step in Es; cbn [fst snd] in Es; destruct (ws !! k) as [[r|f]|] eqn:Ei; [done| |done];
      destruct (f (set_chan q s)) as [[s2 p']|] eqn:Ef; [|done]; injection Es as <- <-; by econstructor)))). apply IH.
  Qed.
  Lemma e_move_run mv m vs m' : e_move mv m = Some (vs, m') -> erun C m vs m'.
  Proof.
    destruct m as [[s ts] gs]. destruct mv as [n i c k|i|i e|n j k]; cbn [e_move].
    - destruct (go C n i c k (s, ts)) as [[v1 m1]|] eqn:E; [|done]. intros [= <- <-]. apply con_erun. by eapply go_run.
    - destruct (ts !! i) as [t|] eqn:Ei; [|done]. destruct t as [|c| | | | | ]; try done. destruct c; try done. destruct gs as [|g gs]; [done|].
      destruct (free_x ts) eqn:Ef; [|done]. intros [= <- <-]. apply estep_erun. constructor; [done|by apply free_x_spec|done].
    - destruct (ts !! i) as [t|] eqn:Ei; [|done]. destruct t as [| | | |c b| | ]; try done. destruct b as [| | | |two io ws| ]; try done.
      destruct (is_cancel e) eqn:Ee.
      + intros [= <- <-]. apply estep_erun. eapply EsEarly; [done|]. left. by destruct e.
      + destruct (has_err ws) as [e'|] eqn:Ef; [|done]. intros [= <- <-]. apply estep_erun. eapply EsEarly; [done|]. right. by apply has_err_in.
    - intros [= <- <-]. apply group_go_run.
  Qed.
  Lemma e_exec_run mvs m vs m' : e_exec mvs m = Some (vs, m') -> erun C m vs m'.
  Proof.
    revert m vs m'. induction mvs as [|mv mvs IH]; intros m vs m'; cbn [e_exec]; [intros [= <- <-]; constructor|].
    destruct (e_move mv m) as [[v1 m1]|] eqn:E1; [|done]. destruct (e_exec mvs m1) as [[v2 m2]|] eqn:E2; [|done].
    intros [= <- <-]. eapply erun_app; [by eapply e_move_run|by apply IH].
  Qed.
End run.
