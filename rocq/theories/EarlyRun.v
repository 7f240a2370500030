(** Runs with workers that outlive their batch call: the books of everybody. *)
From stdpp Require Import relations.
From Verif Require Import GoBase FloatModel HeapModel ProgModel StateModel WalModel HnswModel StoreModel CollModel CallModel LinModel EarlyModel
  ProofBase CodecProofs WpProofs StepProofs StoreProofs CallProofs LinProofs LinTrace PropLin EarlyProofs.
Open Scope nat_scope.
Local Arguments id_key _ : simpl never.

Lemma join_at {A} (ls : list (list A)) i l : ls !! i = Some l ->
  mjoin ls ≡ₚ l ++ mjoin (delete i ls) /\ forall l', mjoin (<[i := l']> ls) ≡ₚ l' ++ mjoin (delete i ls).
Proof.
  intros Hi. split.
  - rewrite <- mjoin_cons. apply mjoin_perm. by apply delete_Permutation.
  - intros l'. rewrite <- mjoin_cons. apply mjoin_perm. by eapply perm_insert.
Qed.
Lemma lookup_delete_other {A} (l : list A) i j x : j <> i -> l !! j = Some x -> x ∈ delete i l.
Proof.
  intros Hne Hj. apply elem_of_list_lookup. destruct (decide (j < i)).
  - exists j. by rewrite lookup_delete_lt.
  - exists (pred j). rewrite lookup_delete_ge by lia. by replace (S (pred j)) with j by lia.
Qed.
Lemma Forall2_update {A B} (P Q : A -> B -> Prop) l k i a b :
  Forall2 P l k -> (forall j x y, j <> i -> l !! j = Some x -> k !! j = Some y -> P x y -> Q x y) -> Q a b -> i < length l ->
  Forall2 Q (<[i := a]> l) (<[i := b]> k).
Proof.
  intros HF Hq Hab Hi. pose proof (Forall2_length _ _ _ HF) as Hl. apply Forall2_same_length_lookup. split; [by rewrite !insert_length|].
  intros j x y Hx Hy. destruct (decide (j = i)) as [->|Hne].
  - rewrite list_lookup_insert in Hx by done. rewrite list_lookup_insert in Hy by lia. by simplify_eq.
  - rewrite list_lookup_insert_ne in Hx by done. rewrite list_lookup_insert_ne in Hy by done. eapply Hq; [done..|]. by eapply Forall2_lookup_lr.
Qed.

Section sys.
  Context (C : cparams) (D : bytes -> Prop) (c0 : N) (s0 : st).
  Notation ewp := (wp (eE D) (eGU D) eB).
  Notation eW := (EarlyProofs.eW D c0 s0).
  Notation eE := (EarlyProofs.eE D).
  Notation eack := (EarlyProofs.eack C D).

  Definition wks (ws : list (prog st (list object))) (xs : list eg) (s : st) : Prop := Forall2 (fun p x => ewp p (eQw C D) x s) ws xs.
  (** What is known of a goroutine that calls, and of a batch left behind. *)
  Definition cok (t : client) (xs : list eg) (s : st) : Prop :=
    match t with
    | TIdle => xs = []
    | TCall c => xs = [EG [] (length (submitted c))] /\ forall io id, c = CDelete io id -> D (id_key id)
    | TLook _ id _ | TWait _ id => (exists x, xs = [x]) /\ D (id_key id)
    | TX _ (XIns p) => exists x, xs = [x] /\ ewp p (eQi C D) x s
    | TX _ (XUnit p) | TX _ (XDel p) => exists x, xs = [x] /\ ewp p (fun _ _ _ => True) x s
    | TX _ (XBatch _ _ ol) => xs = [EG [] (length ol)]
    | TX _ (XWork _ _ ws) => wks ws xs s
    | TX _ (XEnd r) | TRet r => eack (vacked r) (ids_of xs) s
    | TR _ (YGet p) => steps ekeep p
    | TR _ (YSearch p) => steps ekeep p
    end.
  Definition queues (gs : list group) : nat := sum_list ((fun g : group => length g.1) <$> gs).

  Lemma eE_ids xs s s' : (forall x, x ∈ xs -> eE x s s') ->
    forall id, id ∈ ids_of xs -> ~ D (id_key id) -> same_at (id_key id) s s'.
  Proof. intros H id (l & Hl & (x & -> & Hx)%elem_of_list_fmap)%elem_of_list_join Hd. by apply (H x Hx). Qed.
  Lemma wks_E ws xs s s' : (forall x, x ∈ xs -> eE x s s') -> wks ws xs s -> wks ws xs s'.
  Proof.
    intros HE HF. apply Forall2_same_length_lookup. split; [by eapply Forall2_length|].
    intros k p x Hp Hx. eapply ewp_env; [apply HE; by eapply elem_of_list_lookup_2|]. by eapply (Forall2_lookup_lr _ _ _ _ _ _ HF).
  Qed.
  Lemma cok_E t xs s s' : (forall x, x ∈ xs -> eE x s s') -> cok t xs s -> cok t xs s'.
  Proof.
    intros HE. destruct t as [|c|io id ob|io id|c b|c b|r]; cbn [cok]; try done.
    - destruct b as [p|p|p|two io ol|two io ws|r]; try done.
      1-3: intros (x & -> & Hw); exists x; split; [done|]; eapply ewp_env; [apply HE; by left|done].
      + by apply wks_E.
      + apply eack_same. by apply eE_ids.
    - apply eack_same. by apply eE_ids.
  Qed.

  Definition einv (vs : list vis) (m : esys) : Prop :=
    let '(s, ts, gs) := m in
    exists cx gx rs, Forall2 (fun t xs => cok t xs s) ts cx /\ Forall2 (fun (g : group) xs => wks g.2 xs s) gs gx /\
      eW (c0 + N.of_nat (asked vs)) (rs ++ mjoin cx ++ mjoin gx) (queues gs) s /\
      eack (mjoin (vacked <$> returned vs)) (ids_of rs) s.

  Lemma asked_app vs vs' : asked (vs ++ vs') = asked vs + asked vs'.
  Proof. unfold asked, called. rewrite omap_app, fmap_app. induction (omap _ vs); cbn; lia. Qed.

  (** A goroutine takes a step. *)
  Lemma upd_client vs vs' s ts gs i t t' s' :
    ts !! i = Some t -> einv vs (s, ts, gs) -> returned (vs ++ vs') = returned vs ->
    (forall xs rest q, cok t xs s -> eW (c0 + N.of_nat (asked vs)) (xs ++ rest) q s ->
      exists xs', cok t' xs' s' /\ eW (c0 + N.of_nat (asked (vs ++ vs'))) (xs' ++ rest) q s' /\ forall y, y ∈ rest -> eE y s s') ->
    einv (vs ++ vs') (s', <[i := t']> ts, gs).
  Proof.
    intros Hi (cx & gx & rs & HC & HG & HW & HA) Hret Hstep.
    destruct (Forall2_lookup_l _ _ _ _ _ HC Hi) as (xs & Hx & Hc). destruct (join_at _ _ _ Hx) as [P1 P2].
    set (rest := rs ++ mjoin (delete i cx) ++ mjoin gx).
    assert (Pw : forall l l', l ≡ₚ l' ++ mjoin (delete i cx) -> rs ++ l ++ mjoin gx ≡ₚ l' ++ rest).
    { intros l l' ->. unfold rest. rewrite <- !app_assoc, !(Permutation_app_swap_app rs). done. }
    destruct (Hstep xs rest (queues gs) Hc) as (xs' & Hc' & HW' & HE); [by eapply eW_perm; [apply Pw|exact HW]|].
    exists (<[i := xs']> cx), gx, rs. split_and!.
    - eapply Forall2_update; [exact HC| |done|by eapply lookup_lt_Some].
      intros j u ys Hne _ Hy. apply cok_E. intros y Hin. apply HE. unfold rest. rewrite !elem_of_app. right; left.
      apply elem_of_list_join. exists ys. split; [done|]. by eapply lookup_delete_other.
    - apply Forall2_same_length_lookup. split; [by eapply Forall2_length|]. intros j g ys Hg Hy. eapply wks_E; [|by eapply (Forall2_lookup_lr _ _ _ _ _ _ HG)].
      intros y Hin. apply HE. unfold rest. rewrite !elem_of_app. right; right. apply elem_of_list_join. exists ys. split; [done|]. by eapply elem_of_list_lookup_2.
    - eapply eW_perm; [symmetry; apply Pw, P2|done].
    - rewrite Hret. eapply eack_same; [|exact HA]. apply eE_ids. intros y Hin. apply HE. unfold rest. set_solver.
  Qed.

  (** One step of a program in a list of them. *)
  Lemma one_step {A} (f : st -> option (st * prog st A)) Q x M rest q s s' p' :
    (M < 2 ^ 64)%N -> ewp (Step f) Q x s -> f s = Some (s', p') -> eW M (x :: rest) q s ->
    exists x', ewp p' Q x' s' /\ eW M (x' :: rest) q s' /\ forall y, y ∈ rest -> eE y s s'.
  Proof.
    intros HM Hw Hf HW. cbn [wp] in Hw. specialize (Hw s (eE_refl D x s)). rewrite Hf in Hw. destruct Hw as (x' & Hg & Hw).
    destruct (eW_step D c0 s0 M x rest q s x' s' HM HW Hg) as [HW' HE]. by exists x'.
  Qed.
  Lemma wks_step ws xs s s' ws' M rest q :
    (M < 2 ^ 64)%N -> wks ws xs s -> mstep (s, ws) (s', ws') -> eW M (xs ++ rest) q s ->
    exists xs', wks ws' xs' s' /\ eW M (xs' ++ rest) q s' /\ forall y, y ∈ rest -> eE y s s'.
  Proof.
    intros HM HF Hm HW. inversion Hm as [s1 ts1 k f s2 p' Hk Hf]; subst.
    destruct (Forall2_lookup_l _ _ _ _ _ HF Hk) as (x & Hx & Hw).
    assert (P1 : xs ++ rest ≡ₚ x :: (delete k xs ++ rest)). { rewrite app_comm_cons. apply Permutation_app; [by apply delete_Permutation|done]. }
    destruct (one_step f _ x M (delete k xs ++ rest) q s s' p' HM Hw Hf) as (x' & Hw' & HW' & HE); [by eapply eW_perm; [exact P1|]|].
    exists (<[k := x']> xs). split_and!.
    - eapply Forall2_update; [exact HF| |done|by eapply lookup_lt_Some].
      intros j p y Hne _ Hy. apply ewp_env. apply HE. apply elem_of_app. left. by eapply lookup_delete_other.
    - eapply eW_perm; [|exact HW']. rewrite app_comm_cons. apply Permutation_app; [|done]. symmetry. by eapply perm_insert.
    - intros y Hy. apply HE. set_solver.
  Qed.
  Lemma wks_done rs xs s : wks (Done <$> rs) xs s -> eack (mjoin (out_list <$> rs)) (ids_of xs) s.
  Proof.
    revert xs. induction rs as [|r rs IH]; intros xs HF; [apply eack_nil|]. apply Forall2_cons_inv_l in HF as (x & xs' & Hw & HF & ->).
    cbn [fmap list_fmap]. rewrite mjoin_cons, ids_of_cons. intros [Hn Hl]. apply NoDup_app in Hn as (Hn1 & _ & Hn2).
    destruct (IH _ HF) as [I1 I2]; [split; [done|]; intros i Hi; apply Hl; set_solver|].
    assert (eack (out_list r) (e_ids x) s) as Hx.
    { specialize (Hw s (eE_refl D x s)). destruct r as [os|e|z]; cbn; [|apply eack_nil..]. by apply Hw. }
    destruct Hx as [J1 J2]; [split; [done|]; intros i Hi; apply Hl; set_solver|].
    rewrite fmap_app. split; [by apply submseteq_app|by apply Forall_app].
  Qed.
  Lemma eW_same M M' xs xs' q q' s s' : eW M xs q s -> ids_of xs' = ids_of xs -> ekeep s s' -> buds xs' <= buds xs -> q' <= q -> (M <= M')%N -> eW M' xs' q' s'.
  Proof.
    intros HW E (E1 & E2 & E3 & E4) Hb Hq HM. eapply eW_weak; [exact HW|by rewrite E|done..|]. rewrite E4. lia.
  Qed.

  Lemma ekeep_get_each ids : steps ekeep (get_each C ids).
  Proof.
    induction ids as [|id ids IH]; [done|]. cbn [get_each]. apply steps_bind; [by apply steps_act|intros ob].
    apply steps_bind; [destruct ob; [by apply steps_act|done]|intros o]. by apply steps_bind.
  Qed.
  Lemma ekeep_get_steps ids : steps ekeep (get_steps C ids).
  Proof. apply steps_bind; [by apply steps_act|intros _]. apply ekeep_get_each. Qed.
  Lemma ekeep_hsearch o k : steps ekeep (hnsw_search (cp_h C) 0 (cp_fuel C) o k).
  Proof. eapply steps_mono; [apply keep_ekeep|apply search_keep_store]. Qed.
  Lemma ekeep_search o k : steps ekeep (semantic_search C 0 o k) /\ steps ekeep (search_steps C 0 o k).
  Proof.
    split; (apply steps_bind; [by apply steps_act|intros _]); (apply steps_bind; [done|]); (intros [|o' [|? ?]]; [done| |done]);
      (apply steps_bind; [apply ekeep_hsearch|intros es]).
    - apply steps_bind; [by apply steps_act|intros os]. by apply steps_bind.
    - apply steps_bind; [apply ekeep_get_each|intros os]. by apply steps_bind.
  Qed.

  Lemma xstep_ok c s b s' b' M xs rest q :
    (M < 2 ^ 64)%N -> xstep C s b s' b' -> cok (TX c b) xs s -> eW M (xs ++ rest) q s ->
    exists xs', cok (TX c b') xs' s' /\ eW M (xs' ++ rest) q s' /\ forall y, y ∈ rest -> eE y s s'.
  Proof.
    intros HM Hx Hc HW. inversion Hx; subst; cbn [cok] in Hc.
    1-3: destruct Hc as (x & -> & Hw); destruct (one_step f _ x M rest q s s' p' HM Hw) as (x' & Hw' & HW' & HE); [done..|];
      exists [x']; (split; [by exists x'|]); by split.
    - exists xs. split_and!; [|done|intros; apply eE_refl]. cbn [cok]. destruct (batch_prepare C s' ol.*1) as [os|e|z]; [by edestruct H0|apply eack_nil..].
    - subst xs. set (l := zip os ol.*2). exists ((fun i => EG [] (length (chunk (cp_workers C) i l))) <$> seq 0 (cp_workers C)). split_and!.
      + cbn [cok]. unfold wks, batch_threads. apply Forall2_fmap_2. apply Forall_Forall2_diag. apply Forall_forall. intros i _.
        eapply wp_mono; [|apply ewp_worker; done]. intros x r s1. apply ewk_Qw.
      + assert (ids_of ((fun i => EG [] (length (chunk (cp_workers C) i l))) <$> seq 0 (cp_workers C)) = []) as E.
        { generalize (seq 0 (cp_workers C)). intros u. induction u as [|k u IH]; [done|]. done. }
        eapply eW_same; [exact HW| |done| |done|done].
        * rewrite !ids_of_app, E. done.
        * rewrite !buds_app. assert (buds ((fun i => EG [] (length (chunk (cp_workers C) i l))) <$> seq 0 (cp_workers C)) <= length l) as Hb.
          { unfold buds. rewrite <- list_fmap_compose. apply chunk_length_sum. }
          assert (length l <= length ol). { unfold l. rewrite zip_with_length, fmap_length. lia. }
          unfold buds at 3. cbn. lia.
      + intros y _. apply eE_refl.
    - subst xs. set (l := zip os ol.*2). exists (replicate (cp_workers C) (EG [] 0)).
      assert (ids_of (replicate (cp_workers C) (EG [] 0)) = [] /\ buds (replicate (cp_workers C) (EG [] 0)) = 0) as [E1 E2].
      { induction (cp_workers C) as [|k [I1 I2]]; [done|]. by split. }
      split_and!.
      + cbn [cok]. unfold wks, batch2_threads. apply Forall2_same_length_lookup. split; [by rewrite fmap_length, seq_length, replicate_length|].
        intros i p x Hp Hx'. apply lookup_replicate in Hx' as [-> _]. apply list_lookup_fmap_Some in Hp as (i' & _ & ->).
        eapply wp_mono; [|apply ewp_worker2]. intros x r s1. apply ewk_Qw.
      + eapply eW_weak; [exact HW| |done..|].
        * rewrite !ids_of_app, E1. done.
        * rewrite !buds_app, E2. cbn [chan set_chan]. assert (length l <= length ol). { unfold l. rewrite zip_with_length, fmap_length. lia. }
          unfold buds at 2. cbn. lia.
      + intros y _. by apply eE_same.
    - destruct (wks_step ts xs s s' ts' M rest q HM Hc H HW) as (xs' & H1 & H2 & H3). by exists xs'.
    - exists xs. pose proof (wks_done _ _ _ Hc) as Ha. pose proof (flush_ekeep io s) as Hk. rewrite H0 in Hk. cbn [fst] in Hk.
      assert (HE : forall y, eE y s (drop_chan two s'0)).
      { intros y. apply eE_same; destruct Hk as (E1 & E2 & _), two; done. }
      split_and!; [|..].
      + cbn [cok]. unfold vacked. cbn [acked]. destruct r; [|apply eack_nil..]. eapply eack_same; [|exact Ha].
        apply eE_ids. intros x _. apply HE.
      + destruct Hk as (E1 & E2 & E3 & E4). eapply eW_weak; [exact HW|done|by destruct two..|]. destruct two; cbn; rewrite ?E4; cbn; lia.
      + intros y _. apply HE.
    - exists xs. split_and!; [apply eack_nil| |].
      + eapply eW_weak; [exact HW|done|by destruct two..|]. destruct two; cbn; lia.
      + intros y _. apply eE_same; by destruct two.
  Qed.

  Lemma con_step_ok vs0 s ts gs vs s' ts' :
    (c0 + N.of_nat (asked (vs0 ++ vs)) < 2 ^ 64)%N -> (forall i io id, VCall i (CDelete io id) ∈ vs -> D (id_key id)) ->
    con_step C (s, ts) vs (s', ts') -> einv vs0 (s, ts, gs) -> einv (vs0 ++ vs) (s', ts', gs).
  Proof.
    intros HM HD Hs HI. inversion Hs as [s1 ts1 i t vs1 s2 t' Hi Hcl]; subst.
    assert (Hret : forall r, t = TRet r -> vs = [VRet i r] -> s' = s -> t' = TIdle -> einv (vs0 ++ vs) (s', <[i := t']> ts, gs)).
    { intros r -> -> -> ->. destruct HI as (cx & gx & rs & HC & HG & HW & HA).
      destruct (Forall2_lookup_l _ _ _ _ _ HC Hi) as (xs & Hx & Hc). destruct (join_at _ _ _ Hx) as [P1 P2].
      exists (<[i := []]> cx), gx, (rs ++ xs).
      assert (P3 : rs ++ mjoin cx ++ mjoin gx ≡ₚ (rs ++ xs) ++ mjoin (<[i := []]> cx) ++ mjoin gx).
      { rewrite P1, (P2 []). by rewrite <- !app_assoc. }
      split_and!.
      - eapply Forall2_update; [exact HC|done|done|by eapply lookup_lt_Some].
      - done.
      - eapply eW_perm; [exact P3|]. by rewrite asked_app, Nat.add_0_r.
      - unfold returned. rewrite omap_app. cbn [omap list_omap]. rewrite fmap_app, mjoin_app. cbn [fmap list_fmap]. rewrite mjoin_cons, app_nil_r, ids_of_app.
        intros [Hn Hl]. cbn [cok] in Hc. apply NoDup_app in Hn as (Hn1 & _ & Hn2).
        destruct HA as [A1 A2]; [split; [done|]; intros; apply Hl; set_solver|].
        destruct Hc as [B1 B2]; [split; [done|]; intros; apply Hl; set_solver|].
        rewrite fmap_app. split; [by apply submseteq_app|by apply Forall_app]. }
    assert ((exists r, t = TRet r) \/ ~ exists r, t = TRet r) as [[r Er]|Hr] by (destruct t; eauto; right; by intros []).
    { subst t. inversion Hcl; subst. by eapply Hret. }
    clear Hret.
    eapply upd_client; [exact Hi|exact HI| |].
    { inversion Hcl; subst; unfold returned; rewrite omap_app; cbn; try by rewrite app_nil_r. exfalso. eauto. }
    intros xs rest q Hc HW.
    assert (Hid : forall t', vs = [] -> s' = s -> cok t' xs s -> exists xs', cok t' xs' s' /\
      eW (c0 + N.of_nat (asked (vs0 ++ vs))) (xs' ++ rest) q s' /\ forall y, y ∈ rest -> eE y s s').
    { intros t1 -> -> H. exists xs. rewrite app_nil_r. split_and!; [done..|]. intros; apply eE_refl. }
    inversion Hcl; subst; rewrite ?app_nil_r in *.
    - cbn [cok] in Hc. subst xs. exists [EG [] (length (submitted c))]. split_and!; [| |intros; apply eE_refl].
      + cbn [cok]. split; [done|]. intros io id ->. eapply HD. by left.
      + eapply eW_weak; [exact HW|done..|]. rewrite asked_app. cbn [app]. rewrite buds_cons. cbn [e_bud]. unfold asked at 3. cbn. lia.
    - apply Hid; [done..|]. destruct Hc as [-> Hd]. destruct c; cbn in H; try done; injection H as <-; cbn [cok submitted length].
      + eexists. split; [done|]. by apply ewp_insert.
      + by rewrite fmap_length.
      + by rewrite fmap_length.
      + eexists. split; [done|]. apply ewp_update.
      + eexists. split; [done|]. apply ewp_close.
    - by eapply xstep_ok.
    - apply Hid; [done..|]. cbn [cok] in Hc |- *. destruct b as [p|p|p|two io ol|two io ws|r0]; try done.
      + destruct p as [r0|]; [|done]. injection H as <-. destruct Hc as (x & -> & Hw). specialize (Hw s' (eE_refl D x s')).
        destruct r0 as [o|e|z]; [|apply eack_nil..]. unfold ids_of. cbn. rewrite app_nil_r. by apply Hw.
      + destruct p as [r0|]; [|done]. injection H as <-. apply eack_nil.
      + destruct p as [r0|]; [|done]. injection H as <-. apply eack_nil.
      + by injection H as <-.
    - apply Hid; [done..|]. destruct c; cbn in H; try done; injection H as <-; cbn [cok].
      + by apply steps_act.
      + apply ekeep_search.
    - assert (ekeep s s' /\ cok (TR c b') xs s') as [Hk Hc'].
      { cbn [cok] in Hc |- *. inversion H; subst; cbn [steps] in Hc; specialize (Hc s); by rewrite H0 in Hc. }
      exists xs. split_and!; [done| |].
      + eapply eW_same; [exact HW|done..].
      + intros y _. by apply ekeep_E.
    - apply Hid; [done..|]. cbn [cok]. destruct b as [p|p]; (destruct p as [r0|]; [|done]); injection H as <-; apply eack_nil.
    - apply Hid; [done..|]. apply eack_nil.
    - apply Hid; [done..|]. destruct Hc as [-> Hd]. cbn [cok]. split; [by eexists|by eapply Hd].
    - apply Hid; [done..|]. apply eack_nil.
    - apply Hid; [done..|]. apply eack_nil.
    - apply Hid; [done..|]. apply eack_nil.
    - apply Hid; [done..|]. apply eack_nil.
    - apply Hid; [done..|]. apply eack_nil.
    - apply Hid; [done..|]. destruct Hc as [? ?]. cbn [cok]. done.
    - apply Hid; [done..|]. destruct Hc as [[x ->] Hd]. cbn [cok]. exists x. split; [done|]. by apply ewp_delete_rest.
    - exfalso. eauto.
  Qed.

  Lemma estep_ok vs0 m vs m' :
    (c0 + N.of_nat (asked (vs0 ++ vs)) < 2 ^ 64)%N -> (forall i io id, VCall i (CDelete io id) ∈ vs -> D (id_key id)) ->
    estep C m vs m' -> einv vs0 m -> einv (vs0 ++ vs) m'.
  Proof.
    intros HM HD Hs HI. inversion Hs as [s ts gs vs1 s' ts' Hc|s ts gs i ids Hi Hf Hg|s ts gs i o k Hi Hf Hg|s ts gs i c two io ws e Hi He|s ts gs j q ws s1 ws' Hj Hm]; subst.
    - by eapply con_step_ok.
    - eapply upd_client; [exact Hi|exact HI|by rewrite app_nil_r|]. intros xs rest q Hc HW. exists xs. rewrite app_nil_r.
      split_and!; [apply ekeep_get_steps|done|intros; apply eE_refl].
    - eapply upd_client; [exact Hi|exact HI|by rewrite app_nil_r|]. intros xs rest q Hc HW. exists xs. rewrite app_nil_r.
      split_and!; [apply ekeep_search|done|intros; apply eE_refl].
    - rewrite app_nil_r in *. destruct HI as (cx & gx & rs & HC & HG & HW & HA).
      destruct (Forall2_lookup_l _ _ _ _ _ HC Hi) as (xs & Hx & Hc). destruct (join_at _ _ _ Hx) as [P1 P2]. cbn [cok] in Hc.
      assert (HE : forall y, eE y s (set_chan [] s)) by (intros; by apply eE_same).
      exists (<[i := []]> cx), (gx ++ [xs]), rs. split_and!.
      + eapply Forall2_update; [exact HC| |apply eack_nil|by eapply lookup_lt_Some]. intros j u ys _ _ _. apply cok_E. intros y _. apply HE.
      + apply Forall2_app; [|constructor; [|constructor]].
        * eapply Forall2_impl; [exact HG|]. intros g ys. apply wks_E. intros y _. apply HE.
        * eapply wks_E; [|exact Hc]. intros y _. apply HE.
      + assert (P3 : rs ++ mjoin (<[i := []]> cx) ++ mjoin (gx ++ [xs]) ≡ₚ rs ++ mjoin cx ++ mjoin gx).
        { rewrite P1, (P2 []), mjoin_app. change (mjoin [xs]) with (xs ++ []). rewrite app_nil_r. cbn [app].
          apply Permutation_app_head. rewrite <- (app_assoc xs), (Permutation_app_comm xs). by rewrite <- app_assoc. }
        eapply eW_weak; [exact HW|by apply ids_of_perm|done..|]. rewrite (buds_perm _ _ P3). unfold queues. rewrite fmap_app.
        assert (sum_list (((fun g : group => length g.1) <$> gs) ++ ((fun g : group => length g.1) <$> [(chan s, ws)])) =
          sum_list ((fun g : group => length g.1) <$> gs) + length (chan s)) as ->.
        { generalize ((fun g : group => length g.1) <$> gs). intros l. induction l; cbn in *; lia. }
        cbn [chan set_chan length]. lia.
      + eapply eack_same; [|exact HA]. apply eE_ids. intros y _. apply HE.
    - rewrite app_nil_r in *. destruct HI as (cx & gx & rs & HC & HG & HW & HA).
      destruct (Forall2_lookup_l _ _ _ _ _ HG Hj) as (xs & Hx & Hc). destruct (join_at _ _ _ Hx) as [P1 P2]. cbn [snd] in Hc.
      set (rest := rs ++ mjoin cx ++ mjoin (delete j gx)).
      assert (Pw : forall l l', l ≡ₚ l' ++ mjoin (delete j gx) -> rs ++ mjoin cx ++ l ≡ₚ l' ++ rest).
      { intros l l' ->. unfold rest. by rewrite (Permutation_app_swap_app (mjoin cx)), (Permutation_app_swap_app rs). }
      assert (Hq : exists r, queues gs = length q + r /\ forall q' ws', queues (<[j := (q', ws')]> gs) = length q' + r).
      { clear -Hj. unfold queues. revert j Hj. induction gs as [|g gs IH]; intros [|j] Hj; try done; cbn in *.
        - injection Hj as ->. cbn. eexists. split; [done|]. done.
        - destruct (IH j Hj) as (r & E1 & E2). exists (length g.1 + r). split; [lia|]. intros q' ws'. rewrite E2. lia. }
      destruct Hq as (qr & Q1 & Q2).
      assert (HE0 : forall y, eE y s (set_chan q s)) by (intros; by apply eE_same).
      destruct (wks_step ws xs (set_chan q s) s1 ws' (c0 + N.of_nat (asked vs0)) rest (qr + length (chan s))) as (xs' & Hc' & HW' & HE); [done| |done| |].
      { eapply wks_E; [|exact Hc]. intros y _. apply HE0. }
      { eapply eW_weak; [exact HW| |done..|].
        - apply ids_of_perm. symmetry. by apply Pw.
        - rewrite (buds_perm _ _ (Pw _ _ P1)), Q1. cbn [chan set_chan]. lia. }
      assert (HE' : forall y, y ∈ rest -> eE y s (set_chan (chan s) s1)).
      { intros y Hy. eapply eE_trans; [apply HE0|]. eapply eE_trans; [by apply HE|]. by apply eE_same. }
      exists cx, (<[j := xs']> gx), rs. split_and!.
      + apply Forall2_same_length_lookup. split; [by eapply Forall2_length|]. intros i t ys Ht Hy. eapply cok_E; [|by eapply (Forall2_lookup_lr _ _ _ _ _ _ HC)].
        intros y Hin. apply HE'. unfold rest. rewrite !elem_of_app. right; left. apply elem_of_list_join. exists ys. split; [done|]. by eapply elem_of_list_lookup_2.
      + eapply Forall2_update; [exact HG| | |by eapply lookup_lt_Some].
        * intros i g ys Hne _ Hy. apply wks_E. intros y Hin. apply HE'. unfold rest. rewrite !elem_of_app. right; right.
          apply elem_of_list_join. exists ys. split; [done|]. by eapply lookup_delete_other.
        * eapply wks_E; [|exact Hc']. intros y _. by apply eE_same.
      + eapply eW_weak; [exact HW'| |done..|].
        * apply ids_of_perm. apply Pw, P2.
        * rewrite (buds_perm _ _ (Pw _ _ (P2 xs'))), Q2. cbn [chan set_chan]. lia.
      + eapply eack_same; [|exact HA]. apply eE_ids. intros y Hin. apply HE'. unfold rest. set_solver.
  Qed.

  Lemma einv_run n vs m :
    cnt s0 = c0 -> chan s0 = [] -> (c0 + N.of_nat (asked vs) < 2 ^ 64)%N -> (forall i io id, VCall i (CDelete io id) ∈ vs -> D (id_key id)) ->
    erun C (s0, replicate n TIdle, []) vs m -> einv vs m.
  Proof.
    intros Hc Hch. remember (s0, replicate n TIdle, []) as m0 eqn:E. intros HM HD Hr. induction Hr as [m|m vs1 m1 vs2 m2 Hr IH Hs]; subst.
    - exists (replicate n []), [], []. assert (mjoin (replicate n ([] : list eg)) = []) as Ej by (induction n; done). split_and!.
      + apply Forall2_replicate. done.
      + constructor.
      + rewrite Ej. split; cbn.
        * constructor.
        * intros id Hid. by apply elem_of_nil in Hid.
        * lia.
        * rewrite Hch. cbn. lia.
        * intros k _ _. done.
      + apply eack_nil.
    - eapply estep_ok; [done| |done|].
      + intros i io id Hin. apply (HD i io id). set_solver.
      + apply IH; [done| |].
        * rewrite asked_app in HM. lia.
        * intros i io id Hin. apply (HD i io id). set_solver.
  Qed.
End sys.
