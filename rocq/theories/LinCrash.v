(** A process that dies while any number of goroutines use a collection: the
    state it leaves is the state a single call leaves that is cut short after
    a history of complete calls. *)
From stdpp Require Import relations.
From Verif Require Import GoBase FloatModel HeapModel ProgModel StateModel WalModel HnswModel StoreModel CollModel CallModel LinModel
  ProofBase CodecProofs WpProofs StepProofs CallProofs HistProofs StoreView LinProofs LinTrace.
Open Scope nat_scope.

(** The replies of Insert, InsertBatch and InsertBatch2. *)
Definition ins_reply (r : reply) : Prop := match r with RIns _ | RBatch _ _ => True | _ => False end.

(** The call a goroutine is in and has not finished. *)
Definition th_call (t : client) : option call :=
  match t with
  | TX c b => match xreply b with Some _ => None | None => Some c end
  | TCall c | TR c _ => Some c
  | TLook io id _ | TWait io id => Some (CDelete io id)
  | TIdle | TRet _ => None
  end.
Lemma called_app vs vs' : called (vs ++ vs') = called vs ++ called vs'. Proof. apply omap_app. Qed.

Lemma rtc_mstep_one {A} (p : prog st A) x f s s' p' :
  rtc mstep x (s, [p]) -> p = Step f -> f s = Some (s', p') -> rtc mstep x (s', [p']).
Proof.
  intros Hr -> Hf. eapply rtc_r; [exact Hr|]. change [p'] with (<[0 := p']> [Step f]). by eapply MStep.
Qed.

Section crash.
  Context (C : cparams).

  (** The holder of c.mu has not come to its end; it took c.mu in state [sb]. *)
  Definition cbody (c : call) (sb : st) (b : xbody) (s : st) : Prop :=
    match b with
    | XIns p => exists io level o, c = CInsert io level o /\ exec (CollModel.insert C 0 io level o) sb = exec p s /\ steps grow p /\
        rtc mstep (sb, [CollModel.insert C 0 io level o]) (s, [p])
    | XUnit p => s = sb /\ xstart C c = Some (XUnit p)
    | XDel p => exists io id, c = CDelete io id /\ known sb id /\ exec (delete_rest io id) sb = exec p s /\
        rtc mstep (sb, [delete_rest io id]) (s, [p])
    | _ => xrel C c sb b s
    end.
  Definition crbody (b : rbody) : Prop :=
    match b with
    | YGet p => (exists ids, p = CollModel.get C ids) \/ exists r, p = Done r
    | YSearch p => ro p
    end.
  Record crel (s0 : st) (es : list (call * reply)) (sb : st) (vs : list vis) (s : st) (ts : list client) : Prop := MkCrel {
    cr_hist : hist C s0 (uncurry EvCall <$> es) sb;
    cr_eq : (forall i t, ts !! i = Some t -> ~ holds_x t) -> sb = s;
    cr_x : forall i c b, ts !! i = Some (TX c b) ->
      match xreply b with Some r => sb = s /\ (c, r) ∈ es | None => cbody c sb b s /\ (early b = None -> grow sb s) end;
    cr_excl : forall i j t u, ts !! i = Some t -> ts !! j = Some u -> holds_x t -> holds u -> i = j;
    cr_r : forall i c b, ts !! i = Some (TR c b) -> crbody b;
    cr_found : forall i t id, ts !! i = Some t -> found id t -> known s id \/ known sb id;
    cr_ret : forall i r, ts !! i = Some (TRet r) -> ins_reply r -> exists c, (c, r) ∈ es;
    cr_vs : forall i r, VRet i r ∈ vs -> ins_reply r -> exists c, (c, r) ∈ es;
    cr_called : es.*1 ++ omap th_call ts ⊆+ called vs
  }.

  Lemma crel_upd s0 es sb vs s ts i t es' sb' vs' s' t' :
    crel s0 es sb vs s ts -> ts !! i = Some t ->
    hist C s0 (uncurry EvCall <$> es') sb' -> es ⊆ es' ->
    (forall j r, VRet j r ∈ vs' -> ins_reply r -> exists c, (c, r) ∈ es') ->
    (s' = s /\ sb' = sb) \/ (forall j u, j <> i -> ts !! j = Some u -> ~ holds_x u) ->
    (~ holds_x t' -> (forall j u, j <> i -> ts !! j = Some u -> ~ holds_x u) -> sb' = s') ->
    match t' with
    | TX c b => (forall j u, j <> i -> ts !! j = Some u -> ~ holds u) /\
        match xreply b with Some r => sb' = s' /\ (c, r) ∈ es' | None => cbody c sb' b s' /\ (early b = None -> grow sb' s') end
    | TR c b => (forall j u, j <> i -> ts !! j = Some u -> ~ holds_x u) /\ crbody b
    | TRet r => ins_reply r -> exists c, (c, r) ∈ es'
    | _ => True
    end ->
    (forall id, found id t' -> known s' id \/ known sb' id) ->
    (forall id, known s id \/ known sb id -> known s' id \/ known sb' id) ->
    es'.*1 ++ option_list (th_call t') ⊆+ es.*1 ++ option_list (th_call t) ++ called vs' ->
    crel s0 es' sb' (vs ++ vs') s' (<[i := t']> ts).
  Proof.
    intros [HH HE HX HL HR HF HT HV HC] Hi Hh Hes Hvs Hoth Heq Ht' Hf Hk Hcl. pose proof (lookup_lt_Some _ _ _ Hi) as Hlt. split.
    - done.
    - intros Hno. apply Heq.
      + apply (Hno i). by rewrite list_lookup_insert.
      + intros j u Hne Hu. apply (Hno j). by rewrite list_lookup_insert_ne.
    - intros j c b. destruct (decide (j = i)) as [->|Hne].
      + rewrite list_lookup_insert by done. intros [= ->]. apply Ht'.
      + rewrite list_lookup_insert_ne by done. intros Hj. destruct Hoth as [[-> ->]|Hoth].
        * pose proof (HX j c b Hj) as H. destruct (xreply b); [|done]. destruct H. split; [done|by apply Hes].
        * by destruct (Hoth j _ Hne Hj).
    - intros j k u v Hj Hk' Hu Hv.
      destruct (decide (j = i)) as [->|Hji]; destruct (decide (k = i)) as [->|Hki]; try done.
      + rewrite list_lookup_insert in Hj by done. injection Hj as <-. rewrite list_lookup_insert_ne in Hk' by done.
        exfalso. destruct t'; try done. destruct Ht' as [Ht' _]. by eapply (Ht' k).
      + rewrite list_lookup_insert in Hk' by done. injection Hk' as <-. rewrite list_lookup_insert_ne in Hj by done.
        exfalso. destruct t'; try done; destruct Ht' as [Ht' _].
        * eapply (Ht' j); [done|done|by apply holds_x_holds].
        * by eapply (Ht' j).
      + rewrite list_lookup_insert_ne in Hj, Hk' by done. by eapply HL.
    - intros j c b. destruct (decide (j = i)) as [->|Hne].
      + rewrite list_lookup_insert by done. intros [= ->]. apply Ht'.
      + rewrite list_lookup_insert_ne by done. apply HR.
    - intros j u id Hj Hu. destruct (decide (j = i)) as [->|Hji].
      + rewrite list_lookup_insert in Hj by done. injection Hj as <-. by apply Hf.
      + rewrite list_lookup_insert_ne in Hj by done. apply Hk. by eapply HF.
    - intros j r. destruct (decide (j = i)) as [->|Hne].
      + rewrite list_lookup_insert by done. intros [= ->]. apply Ht'.
      + rewrite list_lookup_insert_ne by done. intros Hj Hr. destruct (HT j r Hj Hr) as [c Hc]. exists c. by apply Hes.
    - intros j r [Hj|Hj]%elem_of_app Hr; [|by eapply Hvs]. destruct (HV j r Hj Hr) as [c Hc]. exists c. by apply Hes.
    - rewrite called_app. apply (submseteq_app_inv_l _ _ (option_list (th_call t))).
      rewrite (Permutation_app_swap_app (option_list (th_call t)) (es'.*1)), (omap_insert th_call ts i t t' Hi), app_assoc.
      etrans; [eapply submseteq_skips_r, Hcl|].
      assert (E : (es.*1 ++ option_list (th_call t) ++ called vs') ++ omap th_call ts ≡ₚ option_list (th_call t) ++ (es.*1 ++ omap th_call ts) ++ called vs') by solve_Permutation.
      rewrite E. apply submseteq_skips_l, submseteq_skips_r, HC.
  Qed.

  (** Nothing the others can see, and no call ends. *)
  Lemma crel_quiet s0 es sb vs s ts i t vs' t' :
    crel s0 es sb vs s ts -> ts !! i = Some t -> ~ holds_x t -> ~ holds t' ->
    (forall j r, VRet j r ∈ vs' -> ins_reply r -> exists c, (c, r) ∈ es) ->
    match t' with TRet r => ins_reply r -> exists c, (c, r) ∈ es | _ => True end ->
    (forall id, found id t' -> known s id \/ known sb id) ->
    option_list (th_call t') ⊆+ option_list (th_call t) ++ called vs' ->
    crel s0 es sb (vs ++ vs') s (<[i := t']> ts).
  Proof.
    intros HR Hi Ht Hh' Hvs Hr Hf Hth. eapply crel_upd; [exact HR|exact Hi|apply HR|done|exact Hvs|by left| | |exact Hf|done|by apply submseteq_skips_l].
    - intros _ Ho. apply (cr_eq _ _ _ _ _ _ HR). intros j u Hu. destruct (decide (j = i)) as [->|Hne]; [congruence|by eapply Ho].
    - destruct t'; try done; by destruct Hh'.
  Qed.

  Lemma cbody_start c b s : xstart C c = Some b -> cbody c s b s /\ xreply b = None.
  Proof.
    destruct c; cbn [xstart]; intros [= <-]; (split; [|done]); cbn [cbody xrel]; try done.
    eexists _, _, _. split_and!; [done..|apply grow_insert|done].
  Qed.

  Lemma cbody_run_event s0 es sb c r s :
    hist C s0 (uncurry EvCall <$> es) sb -> call_run C sb c s r -> hist C s0 (uncurry EvCall <$> es ++ [(c, r)]) s.
  Proof. intros Hh Hc. rewrite fmap_app. eapply HistSnoc; [exact Hh|]. by apply StepCall. Qed.

  (** A step inside the critical section: the call goes on, or it ends. *)
  Lemma cbody_step c sb b s s' b' :
    cbody c sb b s -> (early b = None -> grow sb s) -> xreply b = None -> xstep C s b s' b' ->
    match xreply b' with
    | Some r => call_run C sb c s' r /\ forall id, known s id \/ known sb id -> known s' id
    | None => cbody c sb b' s' /\ (early b' = None -> grow sb s') /\ (forall id, known s id -> known s' id \/ known sb id)
    end.
  Proof.
    intros Hb Hg Hn Hx.
    assert (forall p0 p', b = XIns p0 -> b' = XIns p' -> match xreply b' with
      | Some r => call_run C sb c s' r /\ forall id, known s id \/ known sb id -> known s' id
      | None => cbody c sb b' s' /\ (early b' = None -> grow sb s') /\ (forall id, known s id -> known s' id \/ known sb id)
      end) as HIns.
    { intros p0 p' -> ->. specialize (Hg eq_refl). inversion Hx; subst. destruct Hb as (io & level & o & -> & He & Hst & Hr).
      cbn [exec steps] in *. specialize (Hst s). match goal with H : f s = Some _ |- _ => rename H into Hf end. rewrite Hf in He, Hst.
      destruct Hst as [Hs1 Hst]. pose proof (grow_trans _ _ _ Hg Hs1) as Hg'.
      pose proof (rtc_mstep_one _ _ f _ _ _ Hr eq_refl Hf) as Hr'.
      destruct p' as [r|f']; cbn [xreply].
      - split; [by apply RunInsert|]. intros id [Hk|Hk]; (eapply grow_known; [|exact Hk]); done.
      - split_and!; [eexists _, _, _; by split_and!|done|]. intros id Hk. left. eapply grow_known; [|exact Hk]. done. }
    assert (forall bb, xrel C c sb b s -> b' = bb -> early b = None -> (forall p0, b <> XIns p0) ->
      match bb with XBatch _ _ _ | XWork _ _ _ | XEnd _ => True | _ => False end -> match xreply b' with
      | Some r => call_run C sb c s' r /\ forall id, known s id \/ known sb id -> known s' id
      | None => cbody c sb b' s' /\ (early b' = None -> grow sb s') /\ (forall id, known s id -> known s' id \/ known sb id)
      end) as HB.
    { intros bb Hxr -> He _ Hbb. specialize (Hg He). destruct (xrel_step _ _ _ _ _ _ _ Hxr Hg Hx) as (Hxr' & Hg1 & _).
      pose proof (grow_trans _ _ _ Hg Hg1) as Hg'. destruct bb; try done; cbn [xreply cbody].
      1,2: split_and!; [done|done|]; intros id Hk; left; (eapply grow_known; [|exact Hk]); done.
      split; [done|]. intros id [Hk|Hk]; (eapply grow_known; [|exact Hk]); done. }
    destruct Hx as [f s s' p' Hf|f s s' p' Hf|f s s' p' Hf| | | | | | ]; try (by eapply HB).
    - by eapply HIns.
    - destruct Hb as [-> Hs]. destruct c; cbn [xstart] in Hs; try done; injection Hs as <-.
      + apply Some_pair_inj in Hf as [<- <-]; cbn [xreply].
        split; [apply RunUpdate; unfold update, check_open; by rewrite exec_act|naive_solver].
      + destruct (closed sb) eqn:Ec; apply Some_pair_inj in Hf as [<- <-]; cbn [xreply];
          (split; [apply RunClose; unfold close; by rewrite exec_act, Ec|naive_solver]).
    - destruct Hb as (io & id & -> & Hk & He & Hr). cbn [exec] in He. rewrite Hf in He.
      pose proof (rtc_mstep_one _ _ f _ _ _ Hr eq_refl Hf) as Hr'.
      assert (forall t t', rtc mstep (sb, [delete_rest io id]) (t, [t']) -> shrink sb t) as Hsh.
      { intros t t' Ht. destruct (steps_rtc shrink (fun _ => conj (sub_refl _) (reflexivity _)) shrink_trans _ _ Ht) as [H _]; [|exact H].
        constructor; [apply shrink_delete_rest|done]. }
      assert (shrink s s') as [_ Hd1].
      { destruct (steps_rtc shrink (fun _ => conj (sub_refl _) (reflexivity _)) shrink_trans _ _ Hr) as [_ H].
        { constructor; [apply shrink_delete_rest|done]. }
        apply Forall_cons in H as [H _]. cbn [steps] in H. specialize (H s). rewrite Hf in H. by destruct H. }
      assert (forall id', known s id' -> known s' id' \/ known sb id') as Hkk.
      { intros id' [Hk'|(id2 & Hi2 & Hd)].
        - right. left. intros Hn'. apply Hk'. destruct (Hsh _ _ Hr) as [Hss _]. by apply Hss.
        - left. right. exists id2. split; [done|by apply Hd1]. }
      destruct p' as [r|f']; cbn [xreply].
      + cbn [exec] in He. destruct (delete_rest_exec io id sb) as (s2 & r2 & He2 & Hk2). rewrite He in He2. injection He2 as <- <-.
        split; [|naive_solver]. eapply (RunDelete _ _ _ _ (Val (Some (Object 0 ∅ None)))); [by apply LookSeen|exact He].
      + split_and!; [by exists io, id|done|done].
  Qed.

  Lemma crel_other s0 es sb vs s ts i t : crel s0 es sb vs s ts -> ts !! i = Some t ->
    (holds_x t -> forall j u, j <> i -> ts !! j = Some u -> ~ holds u) /\
    (holds t -> forall j u, j <> i -> ts !! j = Some u -> ~ holds_x u).
  Proof.
    intros HR Hi. split.
    - intros Ht j u Hne Hu Hh. apply Hne. symmetry. by eapply (cr_excl _ _ _ _ _ _ HR).
    - intros Ht j u Hne Hu Hh. apply Hne. by eapply (cr_excl _ _ _ _ _ _ HR).
  Qed.

  Lemma crel_step s0 es sb vs s ts vs' s' ts' :
    crel s0 es sb vs s ts -> con_step C (s, ts) vs' (s', ts') ->
    (exists es' sb', crel s0 es' sb' (vs ++ vs') s' ts') \/ exists i t, ts' !! i = Some t /\ search_panic t.
  Proof.
    intros HR Hcs. inversion Hcs as [x0 ts0 i t vs0 x0' t' Hi Hst]; subst. clear Hcs.
    destruct (crel_other _ _ _ _ _ _ _ _ HR Hi) as [HOx HOh]. pose proof (lookup_lt_Some _ _ _ Hi) as Hlt.
    assert (forall s2, s2 = s -> ~ holds_x t -> ~ holds t' -> (forall j r, VRet j r ∉ vs') ->
      match t' with TRet r => ~ ins_reply r | _ => True end ->
      (forall id, found id t' -> known s id \/ known sb id) ->
      option_list (th_call t') ⊆+ option_list (th_call t) ++ called vs' ->
      exists es' sb', crel s0 es' sb' (vs ++ vs') s2 (<[i := t']> ts)) as Hq.
    { intros s2 -> H1 H2 H3 H4 H5 H6. exists es, sb. eapply crel_quiet; [exact HR|exact Hi|done|done| | |done|exact H6].
      - intros j r Hv. by destruct (H3 j r).
      - by destruct t'. }
    assert (Forall (fun t => ~ holds t) ts -> sb = s) as Hnob.
    { intros Hf. apply (cr_eq _ _ _ _ _ _ HR). intros j u Hj Hx. rewrite Forall_lookup in Hf. by apply (Hf j u Hj), holds_x_holds. }
    assert (forall c b, t' = TX c b -> s' = s -> vs' = [] -> Forall (fun t => ~ holds t) ts -> cbody c s b s -> xreply b = None -> th_call t = Some c ->
      exists es' sb', crel s0 es' sb' (vs ++ vs') s' (<[i := t']> ts)) as Hlock.
    { intros c b -> -> -> Hno Hcb Hn Htc. pose proof (Hnob Hno) as ->. rewrite Forall_lookup in Hno. exists es, s.
      eapply crel_upd; [exact HR|exact Hi|apply HR|done|intros j r Hv; by apply elem_of_nil in Hv|by left|intros []; done| |by intros ? []|done|].
      2:{ cbn [th_call]. by rewrite Hn, Htc, app_nil_r. }
      split; [intros j u _ Hu; by apply (Hno j u Hu)|]. by rewrite Hn. }
    inversion Hst; subst.
    - left. apply Hq; try done; [by intros []|by intros []|]. intros j r Hv. apply elem_of_list_singleton in Hv. done.
    - left. match goal with H : xstart _ _ = Some _ |- _ => destruct (cbody_start _ _ s' H) as [H1 H2] end. by eapply Hlock.
    - (* a step of the critical section *) left. pose proof (cr_x _ _ _ _ _ _ HR _ _ _ Hi) as Hb.
      match goal with H : xstep _ _ _ _ _ |- _ => rename H into Hx end.
      destruct (xreply b) as [r|] eqn:Er.
      { exfalso. destruct Hx as [?????|?????|?????| | | | | | ]; cbn in Er; done. }
      destruct Hb as [Hb Hg]. pose proof (cbody_step _ _ _ _ _ _ Hb Hg Er Hx) as Hs.
      destruct (xreply b') as [r|] eqn:Er'.
      + destruct Hs as [Hcr Hk]. exists (es ++ [(c, r)]), s'.
        eapply crel_upd; [exact HR|exact Hi|eapply cbody_run_event; [apply HR|done]|set_solver| | |done| |by intros ? []| |].
        * intros j r' Hv. by apply elem_of_nil in Hv.
        * right. intros j u Hne Hu Hh. by apply (HOx I j u Hne Hu), holds_x_holds.
        * split; [by apply HOx|]. rewrite Er'. split; [done|set_solver].
        * intros id Hid. left. by apply Hk.
        * cbn [th_call]. rewrite Er, Er', fmap_app. cbn. by rewrite !app_nil_r.
      + destruct Hs as (Hcb & Hg' & Hk). exists es, sb.
        eapply crel_upd; [exact HR|exact Hi|apply HR|done| | |by intros []| |by intros ? []| |cbn [th_call]; by rewrite Er, Er', app_nil_r].
        * intros j r' Hv. by apply elem_of_nil in Hv.
        * right. intros j u Hne Hu Hh. by apply (HOx I j u Hne Hu), holds_x_holds.
        * split; [by apply HOx|]. by rewrite Er'.
        * intros id [Hid|Hid]; [by apply Hk|by right].
    - (* unlock *) left. pose proof (cr_x _ _ _ _ _ _ HR _ _ _ Hi) as Hb. match goal with H : xreply _ = Some _ |- _ => rewrite H in Hb end.
      destruct Hb as [-> He]. exists es, s'.
      eapply crel_upd; [exact HR|exact Hi|apply HR|done| |by left|done| |by intros ? []|done|by apply submseteq_skips_l, submseteq_nil_l].
      + intros j r' Hv. by apply elem_of_nil in Hv.
      + intros _. by exists c.
    - (* rlock *) left. exists es, sb.
      match goal with H : Forall _ ts |- _ => rewrite Forall_lookup in H; rename H into Hno end.
      eapply crel_upd; [exact HR|exact Hi|apply HR|done| |by left| | |by intros ? []|done|by rewrite app_nil_r].
      + intros j r' Hv. by apply elem_of_nil in Hv.
      + intros _ Ho. apply (cr_eq _ _ _ _ _ _ HR). done.
      + split; [intros j u _ Hu; by apply (Hno j u Hu)|].
        match goal with H : rstart _ c = Some _ |- _ => destruct c; cbn in H; try done; injection H as <- end; cbn; [left; by eexists|apply ro_semantic].
    - (* a reader's step *)
      pose proof (cr_r _ _ _ _ _ _ HR _ _ _ Hi) as Hb.
      assert (forall b'', crbody b'' -> s' = s -> exists es' sb', crel s0 es' sb' (vs ++ []) s' (<[i := TR c b'']> ts)) as Hgo.
      { intros b'' Hb'' ->. exists es, sb. eapply crel_upd; [exact HR|exact Hi|apply HR|done| |by left| | |by intros ? []|done|by rewrite app_nil_r].
        - intros j r' Hv. by apply elem_of_nil in Hv.
        - intros _ Ho. apply (cr_eq _ _ _ _ _ _ HR). intros j u Hu. destruct (decide (j = i)) as [->|Hne]; [rewrite Hi in Hu; injection Hu as <-; by intros []|].
          by apply (Ho j u).
        - split; [by apply HOh|done]. }
      match goal with H : ystep _ _ _ _ |- _ => inversion H; subst end; cbn [crbody ro] in Hb.
      + left. destruct Hb as [[ids Hb]|[r Hb]]; [|done]. injection Hb as ->.
        match goal with H : _ = Some (s', _) |- _ => apply Some_pair_inj in H as [<- <-] end. apply Hgo; [|done]. right. by eexists.
      + specialize (Hb s). match goal with H : _ s = Some (s', _) |- _ => rewrite H in Hb end.
        destruct Hb as [[-> Hb]|[z ->]]; [left; by apply Hgo|right].
        eexists i, _. split; [by rewrite list_lookup_insert|done].
    - (* runlock *) left. match goal with H : yreply ?b = Some ?r |- _ => assert (~ ins_reply r) as Hni by (destruct b as [[]|[]]; try done; injection H as <-; by intros []) end.
      apply Hq; try done; try (by intros []); try (by intros ? []); try (by intros j r' Hv; apply elem_of_nil in Hv); try apply submseteq_nil_l.
    - left. apply Hq; try done; try (by intros []); try (by intros ? []); try (by intros j r' Hv; apply elem_of_nil in Hv); try apply submseteq_nil_l.
    - left. apply Hq; try done; try (by intros []); try (by intros ? []); try (by intros j r' Hv; apply elem_of_nil in Hv); try apply submseteq_nil_l. intros ? <-. left. left. congruence.
    - left. apply Hq; try done; try (by intros []); try (by intros ? []); try (by intros j r' Hv; apply elem_of_nil in Hv); try apply submseteq_nil_l.
    - left. apply Hq; try done; try (by intros []); try (by intros ? []); try (by intros j r' Hv; apply elem_of_nil in Hv); try apply submseteq_nil_l.
    - left. apply Hq; try done; try (by intros []); try (by intros ? []); try (by intros j r' Hv; apply elem_of_nil in Hv); try apply submseteq_nil_l.
    - left. apply Hq; try done; try (by intros []); try (by intros ? []); try (by intros j r' Hv; apply elem_of_nil in Hv); try apply submseteq_nil_l.
    - left. apply Hq; try done; try (by intros []); try (by intros ? []); try (by intros j r' Hv; apply elem_of_nil in Hv); try apply submseteq_nil_l.
    - left. apply Hq; try done; try (by intros []); try (by intros ? []); try (by intros j r' Hv; apply elem_of_nil in Hv); try apply submseteq_nil_l.
      intros ? <-. by apply (cr_found _ _ _ _ _ _ HR i (TLook io id ob)).
    - (* Delete takes c.mu *) left. eapply Hlock; try done. cbn [cbody].
      match goal with H : Forall _ ts |- _ => pose proof (Hnob H) as -> end.
      exists io, id. split_and!; [done| |done|done]. by destruct (cr_found _ _ _ _ _ _ HR i (TWait io id) id Hi).
    - left. exists es, sb. eapply crel_quiet; [exact HR|exact Hi|by intros []|by intros []| |done|by intros ? []|apply submseteq_nil_l].
      intros j r' Hv Hir. apply elem_of_list_singleton in Hv. injection Hv as -> ->. by eapply (cr_ret _ _ _ _ _ _ HR).
  Qed.

  Lemma crel_run s n vs m :
    con_run C (s, replicate n TIdle) vs m -> (exists es sb, crel s es sb vs m.1 m.2) \/ search_panicked vs m.2.
  Proof.
    remember (s, replicate n TIdle) as m0 eqn:Em. induction 1 as [m|m vs1 m1 vs2 m2 Hr IH Hs]; subst.
    - left. exists [], s. split; cbn.
      + constructor.
      + done.
      + by intros i c b [? _]%lookup_replicate.
      + by intros i j t u [-> _]%lookup_replicate _ [].
      + by intros i c b [? _]%lookup_replicate.
      + by intros i t id [-> _]%lookup_replicate [].
      + by intros i r [? _]%lookup_replicate.
      + by intros i r Hv%elem_of_nil.
      + clear. induction n; done.
    - destruct m1 as [s1 ts1], m2 as [s2 ts2]. destruct (IH eq_refl) as [(es & sb & HR)|Hp]; [|right; by eapply panicked_step].
      destruct (crel_step _ _ _ _ _ _ _ _ _ HR Hs) as [?|(i & t & Hi & Ht)]; [by left|]. right. right. by exists i, t.
  Qed.

  (** What the state is at any moment. *)
  Lemma crel_cut s0 es sb vs s ts : crel s0 es sb vs s ts -> exists c, call_cut C sb c s /\ (c = CSize \/ es.*1 ++ [c] ⊆+ called vs).
  Proof.
    intros HR. destruct (decide (Exists (fun t => match t with TX _ _ => true | _ => false end = true) ts)) as [Hx|Hx].
    - apply Exists_exists in Hx as (t & [i Hi]%elem_of_list_lookup & Ht). destruct t as [| | | |c b| |]; try done.
      pose proof (cr_x _ _ _ _ _ _ HR _ _ _ Hi) as Hb. destruct (xreply b) eqn:Er; [destruct Hb as [-> _]; exists CSize; split; [apply CutStart|by left]|].
      exists c. split.
      2:{ right. etrans; [|apply (cr_called _ _ _ _ _ _ HR)]. apply submseteq_skips_l, singleton_submseteq_l, elem_of_list_omap.
          exists (TX c b). split; [by eapply elem_of_list_lookup_2|]. cbn. by rewrite Er. }
      destruct Hb as [Hb _]. destruct b; cbn [cbody xrel] in Hb.
      + destruct Hb as (io & level & o & -> & _ & _ & Hr). by eapply CutInsert.
      + destruct Hb as [-> _]. apply CutStart.
      + destruct Hb as (io & id & -> & Hk & _ & Hr). eapply (CutDelete _ _ _ _ (Val (Some (Object 0 ∅ None)))); [by apply LookSeen|].
        eapply rtc_l; [|exact Hr]. change [delete_rest io id] with (<[0 := delete_rest io id]> [delete_found (Val (Some (Object 0 ∅ None))) io id]).
        by eapply MStep.
      + destruct Hb as [_ ->]. apply CutStart.
      + destruct Hb as (ol & os & Hp & _ & Hr). destruct two; destruct Hr as [-> Hr]; [by eapply CutBatch2|by eapply CutBatch].
      + done.
    - assert (sb = s) as ->; [|exists CSize; split; [apply CutStart|by left]]. apply (cr_eq _ _ _ _ _ _ HR). intros i t Hi Ht. apply Hx, Exists_exists.
      exists t. split; [by eapply elem_of_list_lookup_2|]. by destruct t.
  Qed.
End crash.
