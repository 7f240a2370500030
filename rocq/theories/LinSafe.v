(** Many goroutines using one collection as its callers should: no call
    panics, somebody can always go on, and the calls come to an end. *)
From stdpp Require Import relations.
From Verif Require Import GoBase FloatModel HeapModel ProgModel StateModel WalModel HnswModel StoreModel CollModel CallModel LinModel
  ProofBase CodecProofs CodecSpec LogProofs FloatProofs HeapProofs WpProofs HnswProofs IndexProofs StepProofs SeqLog IndexHist SimProofs
  StoreProofs CallProofs HistProofs WalProofs HistRun StoreView PropStore PropColl RestoreProofs ParLog ParHist AlignProofs CollWf BatchProofs PropRestore
  LinProofs LinTrace LinRun.
Open Scope nat_scope.
Local Arguments id_key _ : simpl never.

(** ** What the callers do *)
(** How many objects the calls of a trace are given to insert. *)
Definition asked (vs : list vis) : nat := sum_list ((fun c => length (submitted c)) <$> called vs).
(** The objects a reply acknowledges. *)
Definition reply_objects (r : reply) : list object :=
  match r with
  | RIns (Val o) => [o]
  | RBatch (Val _) rs => mjoin (out_list <$> rs)
  | _ => []
  end.
(** Every call is [calm], and a search is called when objects have been
    acknowledged already ([fed]: before the goroutines began). *)
Definition calls_ok (C : cparams) (n : nat) (fed : Prop) (vs : list vis) : Prop :=
  forall vs1 i c vs2, vs = vs1 ++ VCall i c :: vs2 ->
    calm C n c /\ (is_search c = true -> fed \/ exists j r, VRet j r ∈ vs1 /\ reply_objects r <> []).

(** A step of a call that is going on: no new calls. *)
Definition busy_step (C : cparams) (m m' : st * list client) : Prop := exists vs, con_step C m vs m' /\ called vs = [].
Definition at_rest (ts : list client) : Prop := Forall (eq TIdle) ts.
(** sync.RWMutex lets no new reader in while somebody waits for Lock, which
    LinModel allows: a step that does not make use of that. *)
Definition wants_lock (C : cparams) (t : client) : Prop :=
  match t with TCall c => is_Some (xstart C c) | TWait _ _ => True | _ => False end.
Definition overtakes (C : cparams) (ts ts' : list client) : Prop :=
  (exists j t, ts !! j = Some t /\ wants_lock C t) /\ exists i c b, ts !! i = Some (TCall c) /\ ts' !! i = Some (TR c b).
Definition polite_step (C : cparams) (m m' : st * list client) : Prop := busy_step C m m' /\ ~ overtakes C m.2 m'.2.

Lemma asked_app vs vs' : asked (vs ++ vs') = asked vs + asked vs'.
Proof. unfold asked, called. rewrite omap_app, fmap_app. induction (_ <$> omap _ vs); cbn in *; lia. Qed.
Lemma calls_ok_app C n fed vs vs' : calls_ok C n fed (vs ++ vs') -> calls_ok C n fed vs.
Proof. intros H vs1 i c vs2 ->. apply (H vs1 i c (vs2 ++ vs')). by rewrite <- app_assoc. Qed.

Lemma sum_perm (l l' : list call) : l ≡ₚ l' ->
  sum_list ((fun c => length (submitted c)) <$> l) = sum_list ((fun c => length (submitted c)) <$> l').
Proof. induction 1; cbn in *; lia. Qed.

Section safe.
  Context (C : cparams) (n B : nat).
  Context (HP : params_ok (cp_h C)) (Hk : dim_ok (hp_dist (cp_h C)) n) (HB : B <= cp_fuel C) (HB64 : (N.of_nat B < 2 ^ 64)%N).
  Context (Hm : hp_m (cp_h C) < 2 * hp_mMax (cp_h C)) (Hmax : (cp_maxval C < 2 ^ 32)%N) (Hdeg : (N.of_nat (hp_m (cp_h C) `max` (2 * hp_mMax (cp_h C))) < 2 ^ 32)%N)
    (HJ : json_total (cp_json C)).
  Context (fed : Prop) (N0 : nat).

  Record good (vs : list vis) (sa : st) (as' : list aclient) : Prop := MkGood {
    g_wf : WfI C n B true sa;
    g_s : SInv sa;
    g_p : PInv sa;
    g_enc : enc_ok C sa;
    g_cnt : (cnt sa + N.of_nat (sum_list ((fun c => length (submitted c)) <$> pending as')) <= N.of_nat (N0 + asked vs))%N;
    g_pend : forall i c, as' !! i = Some (APend c) -> calm C n c /\ (is_search c = true -> nodes sa <> ∅);
    g_done : forall i r, as' !! i = Some (ADone r) -> reply_no_pan r /\ (reply_objects r <> [] -> nodes sa <> ∅);
    g_ret : forall i r, VRet i r ∈ vs -> reply_no_pan r /\ (reply_objects r <> [] -> nodes sa <> ∅);
    g_fed : fed -> nodes sa <> ∅
  }.

  (** A waiting call can be made, and made however, it does no harm. *)
  Lemma good_room vs sa as' i c : good vs sa as' -> N0 + asked vs <= B -> as' !! i = Some (APend c) ->
    (cnt sa + N.of_nat (length (submitted c)) <= N.of_nat B)%N.
  Proof using.
    clear HP Hk HB HB64 Hm Hmax Hdeg HJ.
    intros HG Hn Hi. pose proof (g_cnt _ _ _ HG) as Hc.
    pose proof (omap_insert (fun a => match a with APend c => Some c | _ => None end) _ _ _ AIdle Hi) as P1. cbn in P1.
    apply sum_perm in P1. cbn in P1. unfold pending in Hc. lia.
  Qed.
  Lemma good_call vs sa as' i c s' r : good vs sa as' -> N0 + asked vs <= B -> as' !! i = Some (APend c) -> call_run C sa c s' r ->
    reply_no_pan r /\ WfI C n B true s' /\ SInv s' /\ PInv s' /\ enc_ok C s' /\ (cnt s' <= cnt sa + N.of_nat (length (submitted c)))%N /\
    (nodes sa <> ∅ -> nodes s' <> ∅) /\ (reply_objects r <> [] -> nodes s' <> ∅).
  Proof using HP Hk HB HB64 Hm Hmax Hdeg HJ.
    intros HG Hn Hi Hr. pose proof (good_room _ _ _ _ _ HG Hn Hi) as Hroom. destruct HG as [G1 G2 G3 G4 G5 G6 G7 G8 G9].
    destruct (G6 i c Hi) as [Hc Hs].
    destruct (calm_run C n B HP Hk HB HB64 Hm Hmax Hdeg HJ c sa s' r G1 G2 G3 G4 Hroom Hc Hs Hr) as (H1 & H2 & H3 & H4 & H5 & H6 & H7 & H8).
    split_and!; try done.
    - intros Hne E. apply Hne. apply map_empty. intros id. destruct (nodes sa !! id) as [v|] eqn:Ev; [|done].
      destruct (H7 id ltac:(by exists v)) as [w Hw]. by rewrite E in Hw.
    - intros Hne E. destruct (reply_objects r) as [|o l] eqn:Ea; [done|].
      destruct (H8 o) as [w Hw]; [|by rewrite E in Hw]. change (o ∈ reply_objects r). rewrite Ea. by left.
  Qed.

  Lemma good_step vs1 vs2 es sa as' sa' as2 :
    good vs1 sa as' -> calls_ok C n fed (vs1 ++ vs2) -> N0 + asked (vs1 ++ vs2) <= B ->
    at_step C (eq CSize) (sa, as') vs2 es (sa', as2) -> good (vs1 ++ vs2) sa' as2.
  Proof using HP Hk HB HB64 Hm Hmax Hdeg HJ.
    intros HG Hok Hn Hs. rewrite asked_app in Hn. pose proof HG as [G1 G2 G3 G4 G5 G6 G7 G8 G9].
    inversion Hs as [s0 ts i c Hi|s0 ts i c s' r Hi He|s0 ts i r Hi]; subst; clear Hs; pose proof (lookup_lt_Some _ _ _ Hi) as Hlt.
    - pose proof (omap_insert (fun a => match a with APend c => Some c | _ => None end) _ _ _ (APend c) Hi) as P1. cbn in P1. apply sum_perm in P1. cbn in P1.
      destruct (Hok vs1 i c [] eq_refl) as [Hc Hse].
      split; try done.
      + rewrite asked_app. unfold pending in *. cbn. lia.
      + intros j c' Hj. destruct (decide (j = i)) as [->|Hne]; [|rewrite list_lookup_insert_ne in Hj by done; by eapply G6].
        rewrite list_lookup_insert in Hj by done. injection Hj as <-. split; [done|]. intros E.
        destruct (Hse E) as [Hf|(j & r & Hj & Hr)]; [by apply G9|]. by apply (G8 j r).
      + intros j r Hj. destruct (decide (j = i)) as [->|Hne]; [by rewrite list_lookup_insert in Hj|].
        rewrite list_lookup_insert_ne in Hj by done. by eapply G7.
      + intros j r [Hj|Hj]%elem_of_app; [by eapply G8|]. by apply elem_of_list_singleton in Hj.
    - pose proof (omap_insert (fun a => match a with APend c => Some c | _ => None end) _ _ _ (ADone r) Hi) as P1. cbn in P1. apply sum_perm in P1. cbn in P1.
      assert (Hm1 : reply_no_pan r /\ WfI C n B true sa' /\ SInv sa' /\ PInv sa' /\ enc_ok C sa' /\ (cnt sa' <= cnt sa + N.of_nat (length (submitted c)))%N /\
        (nodes sa <> ∅ -> nodes sa' <> ∅) /\ (reply_objects r <> [] -> nodes sa' <> ∅)).
      { inversion He as [c0 s0 r0 Hr|? ? ? ? ? Hb|k Hb]; subst; [|done|].
        - eapply good_call; [exact HG|lia|exact Hi|done].
        - split_and!; try done. lia. }
      destruct Hm1 as (H1 & H2 & H3 & H4 & H5 & H6 & H7 & H8). rewrite app_nil_r. split; try done.
      + unfold pending in *. lia.
      + intros j c' Hj. destruct (decide (j = i)) as [->|Hne]; [by rewrite list_lookup_insert in Hj|].
        rewrite list_lookup_insert_ne in Hj by done. destruct (G6 j c' Hj) as [? ?]. by split; auto.
      + intros j r' Hj. destruct (decide (j = i)) as [->|Hne].
        * rewrite list_lookup_insert in Hj by done. injection Hj as <-. by split.
        * rewrite list_lookup_insert_ne in Hj by done. destruct (G7 j r' Hj) as [? ?]. by split; auto.
      + intros j r' Hj. destruct (G8 j r' Hj) as [? ?]. by split; auto.
      + intros Hf. by apply H7, G9.
    - pose proof (omap_insert (fun a => match a with APend c => Some c | _ => None end) _ _ _ AIdle Hi) as P1. cbn in P1. apply sum_perm in P1.
      split; try done.
      + rewrite asked_app. unfold pending in *. cbn. lia.
      + intros j c' Hj. destruct (decide (j = i)) as [->|Hne]; [by rewrite list_lookup_insert in Hj|].
        rewrite list_lookup_insert_ne in Hj by done. by eapply G6.
      + intros j r' Hj. destruct (decide (j = i)) as [->|Hne]; [by rewrite list_lookup_insert in Hj|].
        rewrite list_lookup_insert_ne in Hj by done. by eapply G7.
      + intros j r' [Hj|Hj]%elem_of_app; [by eapply G8|]. apply elem_of_list_singleton in Hj. injection Hj as -> ->. by eapply G7.
  Qed.
  Lemma good_run vs1 vs2 es m m' :
    at_run C (eq CSize) m vs2 es m' -> good vs1 m.1 m.2 -> calls_ok C n fed (vs1 ++ vs2) -> N0 + asked (vs1 ++ vs2) <= B -> good (vs1 ++ vs2) m'.1 m'.2.
  Proof using HP Hk HB HB64 Hm Hmax Hdeg HJ.
    induction 1 as [m|m v1 es1 m1 v2 es2 m2 Hr IH Hs]; intros HG Hok Hn; [by rewrite app_nil_r|].
    rewrite app_assoc in *. destruct m1 as [s1 a1], m2 as [s2 a2]. eapply good_step; [apply IH| | |exact Hs]; try done.
    - by eapply calls_ok_app.
    - rewrite asked_app in Hn. lia.
  Qed.

  (** ** No search panics *)
  Lemma reader_eq s ts sa as' i c b : rel C s ts sa as' -> ts !! i = Some (TR c b) -> sa = s.
  Proof using.
    intros HR Hi. apply (rel_eq _ _ _ _ _ HR). intros j t Hj Hx. assert (j = i) as -> by (by eapply (rel_excl _ _ _ _ _ HR)).
    rewrite Hi in Hj. by injection Hj as <-.
  Qed.
  Lemma good_no_panic vs s ts sa as' i t : rel C s ts sa as' -> good vs sa as' -> N0 + asked vs <= B ->
    ts !! i = Some t -> ~ search_panic t.
  Proof using HP Hk HB HB64 Hm Hmax Hdeg HJ.
    intros HR HG Hn Hi Hp. destruct (rel_at _ _ _ _ _ _ _ HR Hi) as (a & Ha & Ht).
    destruct t as [| | | | |c b|r]; try done.
    - destruct b as [|[r|]]; try done. destruct r as [|e|z]; try done. cbn in Ht. destruct Ht as (o & k & -> & -> & Hx & _).
      cbn in Hx. assert (Hr : call_run C sa (CSearch o k) sa (RSearch (Pan z))) by (by constructor).
      destruct (good_call _ _ _ _ _ _ _ HG Hn Ha Hr) as [Hnp _]. by apply (Hnp z).
    - destruct r as [| | | |r| ]; try done. destruct r as [| |z]; try done. cbn in Ht. subst a.
      destruct (g_done _ _ _ HG _ _ Ha) as [Hnp _]. by apply (Hnp z).
  Qed.
  Lemma step_no_panic vs s ts sa as' vs2 s' ts' i t : rel C s ts sa as' -> good vs sa as' -> N0 + asked vs <= B ->
    con_step C (s, ts) vs2 (s', ts') -> ts' !! i = Some t -> ~ search_panic t.
  Proof using HP Hk HB HB64 Hm Hmax Hdeg HJ.
    intros HR HG Hn Hs Hi Hp. inversion Hs as [s0 ts0 j u vs0 s0' u' Hj Hst]; subst. pose proof (lookup_lt_Some _ _ _ Hj) as Hlt.
    destruct (decide (i = j)) as [->|Hne]; [|rewrite list_lookup_insert_ne in Hi by done; exact (good_no_panic vs s ts sa as' i t HR HG Hn Hi Hp)].
    rewrite list_lookup_insert in Hi by done. injection Hi as ->.
    inversion Hst; subst; clear Hst; try done.
    - match goal with H : xreply ?b = Some r |- _ => destruct b as [[]|[]|[]| | |]; try done; injection H as <-; try done end.
      destruct (rel_at _ _ _ _ _ _ _ HR Hj) as (a & Ha & Ht). cbn in Ht. destruct Ht as (-> & Hx & _).
      destruct (good_call _ _ _ _ _ _ _ HG Hn Ha Hx) as [Hnp _]. match goal with r : reply |- _ => destruct r as [| | | |[| |z]|]; try done; by apply (Hnp z) end.
    - match goal with H : rstart _ ?c = Some _ |- _ => destruct c; try done; cbn in H; injection H as <- end; by cbn in Hp.
    - destruct (rel_at _ _ _ _ _ _ _ HR Hj) as (a & Ha & Ht). pose proof (reader_eq _ _ _ _ _ _ _ HR Hj) as ->.
      match goal with H : ystep _ _ _ _ |- _ => inversion H as [|f s0 s1 p' Hf]; subst; [done|] end.
      destruct p' as [r|]; [|done]. destruct r as [|e|z]; try done. cbn in Ht. destruct Ht as (o & k & -> & -> & Hx & _).
      cbn [exec] in Hx. rewrite Hf in Hx. cbn in Hx. assert (Hr : call_run C s (CSearch o k) s' (RSearch (Pan z))) by (by constructor).
      destruct (good_call _ _ _ _ _ _ _ HG Hn Ha Hr) as [Hnp _]. by apply (Hnp z).
    - eapply (good_no_panic vs _ ts _ _ j _ HR HG Hn Hj). match goal with H : yreply ?b = Some _ |- _ => destruct b as [[]|[]]; try done; by injection H as <- end.
  Qed.

  Lemma safe_run s0 k vs m :
    good [] s0 (replicate k AIdle) -> con_run C (s0, replicate k TIdle) vs m -> calls_ok C n fed vs -> N0 + asked vs <= B ->
    exists sa as', rel C m.1 m.2 sa as' /\ good vs sa as'.
  Proof using HP Hk HB HB64 Hm Hmax Hdeg HJ.
    intros HG0 Hcr Hok Hn.
    cut (enc_ok C m.1 /\ Forall (eclient C) m.2 /\ exists sa as', rel C m.1 m.2 sa as' /\ good vs sa as'); [by intros (_ & _ & ?)|].
    revert HG0 Hok Hn. remember (s0, replicate k TIdle) as m0 eqn:Em. induction Hcr as [m|m vs1 m1 vs2 m2 Hr IH Hs]; subst; intros HG0 Hok Hn.
    - cbn. split_and!; [apply HG0|by apply Forall_replicate|]. exists s0, (replicate k AIdle). split; [|done]. split.
      + by rewrite !replicate_length.
      + intros i t a [-> _]%lookup_replicate [-> _]%lookup_replicate. done.
      + done.
      + done.
      + by intros i j t u [-> _]%lookup_replicate _ [].
      + by intros i t id [-> _]%lookup_replicate [].
    - pose proof Hn as Hn1. rewrite asked_app in Hn1.
      destruct m1 as [s1 ts1], m2 as [s2 ts2]. destruct (IH eq_refl HG0) as (H1 & H2 & sa & as' & HR & HG); [by eapply calls_ok_app|lia|].
      cbn [fst snd] in *. destruct (enc_con_step _ _ _ _ _ _ H1 H2 Hs) as [H3 H4]. split_and!; [done|done|].
      destruct (sim_step C (eq CSize) eq_refl _ _ _ _ _ _ _ HR Hs) as [(sa' & es' & as2 & Ha' & HR')|(i & t & Hi & Ht)].
      + right. intros i io id ob vb Hi Hv. pose proof (proj1 (Forall_lookup _ _) H2 _ _ Hi) as [Hl Hp]. by apply (enc_decodes C s1 ob vb _ H1 Hmax HJ Hl Hp Hv).
      + exists sa', as2. split; [done|]. by apply (good_run _ _ _ _ _ Ha').
      + exfalso. eapply (step_no_panic vs1 s1 ts1 sa as' vs2 s2 ts2 i t); try done. lia.
  Qed.

  (** ** Somebody can go on *)
  Lemma exec_moves {A} (p : prog st A) s x : exec p s = Some x -> (exists r, p = Done r) \/ exists f s' p', p = Step f /\ f s = Some (s', p').
  Proof using. destruct p as [r|f]; [by left; exists r|]. cbn. destruct (f s) as [[s' p']|] eqn:E; [|done]. intros _. right. by exists f, s', p'. Qed.

  Lemma good_calls vs sa as' i c : good vs sa as' -> N0 + asked vs <= B -> as' !! i = Some (APend c) -> exists s' r, call_run C sa c s' r.
  Proof using HP Hk HB HB64 Hm Hmax Hdeg HJ.
    intros HG Hn Hi. pose proof (good_room _ _ _ _ _ HG Hn Hi) as Hroom. destruct HG as [G1 G2 G3 G4 G5 G6 G7 G8 G9].
    destruct (G6 i c Hi) as [Hc Hs]. destruct (calm_cases C n c Hc) as [[Hc1 _]|(io & ol & Hb & Hf & Es)].
    - destruct (wf_call C n B true HP (conc_deg C Hm) Hk HB HB64 Hmax Hdeg HJ c sa G1 G4 Hroom Hc1 Hs) as (s' & r & Hr & _). by eexists _, _.
    - rewrite Es, fmap_length in Hroom. by eapply (batch_runs C n B).
  Qed.

  (** The holder of c.mu. *)
  Lemma x_moves vs s ts sa as' i c b : rel C s ts sa as' -> good vs sa as' -> N0 + asked vs <= B -> ts !! i = Some (TX c b) ->
    (exists r, xreply b = Some r) \/ exists s' b', xstep C s b s' b'.
  Proof using HP Hk HB HB64 Hm Hmax Hdeg HJ.
    intros HR HG Hn Hi. destruct (rel_at _ _ _ _ _ _ _ HR Hi) as (a & Ha & Ht). cbn [threl] in Ht.
    destruct b as [p|p|p|two io ol|two io ps|r]; cbn [early] in Ht.
    - destruct Ht as (-> & (io & level & o & -> & Hx & _) & _). destruct (good_calls _ _ _ _ _ HG Hn Ha) as (s' & r & Hr).
      inversion Hr as [io' l' o' s1 r' Hx'| | | | | | | | | |]; subst. rewrite Hx' in Hx. symmetry in Hx. apply exec_moves in Hx as [[r ->]|(f & s2 & p' & -> & Hf)].
      + left. by eexists.
      + right. by eexists _, _; constructor.
    - destruct Ht as (r & _ & Hx & _). apply exec_moves in Hx as [[r' ->]|(f & s2 & p' & -> & Hf)]; [left; by eexists|right; by eexists _, _; constructor].
    - destruct Ht as (r & _ & Hx & _). apply exec_moves in Hx as [[r' ->]|(f & s2 & p' & -> & Hf)]; [left; by eexists|right; by eexists _, _; constructor].
    - right. destruct (batch_prepare C s ol.*1) as [os|e|z] eqn:Ep.
      + destruct two; eexists _, _; [by eapply XSBatch2|by eapply XSBatch].
      + by eexists _, _; eapply XSRefused.
      + by eexists _, _; eapply XSRefused.
    - right. destruct Ht as (-> & (ol & os & Hp & _ & Ht) & _).
      pose proof (good_room _ _ _ _ _ HG Hn Ha) as Hroom. destruct (g_pend _ _ _ HG _ _ Ha) as [Hc _].
      assert (Hfin : can_finish s ps).
      { destruct two; destruct Ht as [-> Hr]; cbn [submitted] in Hroom; rewrite fmap_length in Hroom; cbn in Hc.
        - eapply (batch_start_end C n B HP Hk HB HB64 Hm Hmax Hdeg HJ false (CBatch2 io ol) io ol os sa s ps); try done; [by right|apply HG|apply HG|].
          apply batch_prepare_val in Hp as (_ & _ & He & _). by eapply loose_storable.
        - eapply (batch_start_end C n B HP Hk HB HB64 Hm Hmax Hdeg HJ false (CBatch io ol) io ol os sa s ps); try done; [by left|apply HG|apply HG|].
          apply batch_prepare_val in Hp as (_ & _ & He & _). by eapply loose_storable. }
      destruct Hfin as [[rs ->]|[[s1 ts1] Hs1]]; [|by eexists _, _; apply XSWork].
      destruct (errs_dec rs) as [[e He]|He]; [by eexists _, _; eapply XSFail|].
      destruct (wal_flush io s) as [s2 r] eqn:Ef. by eexists _, _; eapply XSFlush.
    - left. by eexists.
  Qed.
  Lemma y_moves vs s ts sa as' i c b : rel C s ts sa as' -> good vs sa as' -> N0 + asked vs <= B -> ts !! i = Some (TR c b) ->
    (exists r, yreply b = Some r) \/ exists s' b', ystep s b s' b'.
  Proof using HP Hk HB HB64 Hm Hmax Hdeg HJ.
    intros HR HG Hn Hi. pose proof (reader_eq _ _ _ _ _ _ _ HR Hi) as ->. destruct (rel_at _ _ _ _ _ _ _ HR Hi) as (a & Ha & Ht). cbn [threl] in Ht.
    destruct b as [p|p].
    - destruct Ht as (ids & -> & -> & Hx & _). destruct (good_calls _ _ _ _ _ HG Hn Ha) as (s' & r & Hr).
      inversion Hr as [| | | | | |? ? ? Hx'| | | |]; subst. rewrite Hx' in Hx. symmetry in Hx.
      apply exec_moves in Hx as [[r' ->]|(f & s2 & p' & -> & Hf)]; [left; by eexists|right; by eexists _, _; constructor].
    - destruct Ht as (o & k & -> & -> & Hx & _). destruct (good_calls _ _ _ _ _ HG Hn Ha) as (s' & r & Hr).
      inversion Hr as [| | | | | | |? ? ? ? Hx'| | |]; subst. rewrite Hx' in Hx. symmetry in Hx.
      apply exec_moves in Hx as [[r' ->]|(f & s2 & p' & -> & Hf)]; [left; by eexists|right; by eexists _, _; constructor].
  Qed.

  (** A goroutine in a call, when nobody holds c.mu. *)
  Lemma polite s ts i t vs s' t' : ts !! i = Some t -> cl_step C s ts i t vs s' t' -> called vs = [] ->
    (forall c b, t = TCall c -> t' = TR c b -> forall j u, ts !! j = Some u -> ~ wants_lock C u) -> polite_step C (s, ts) (s', <[i := t']> ts).
  Proof using.
    clear HP Hk HB HB64 Hm Hmax Hdeg HJ. intros Hi Hs Hc Hp. split; [exists vs; by split; [econstructor|]|]. intros ((j & u & Hj & Hu) & l & c & b & Hl & Hl'). cbn [snd] in *.
    destruct (decide (l = i)) as [->|Hne].
    - rewrite Hi in Hl. injection Hl as ->. rewrite list_lookup_insert in Hl' by (by eapply lookup_lt_Some). injection Hl' as ->. by eapply (Hp c b).
    - rewrite list_lookup_insert_ne in Hl' by done. congruence.
  Qed.
  Lemma wants_moves s ts i t : ts !! i = Some t -> wants_lock C t -> Forall (fun t => ~ holds t) ts -> exists m, polite_step C (s, ts) m.
  Proof using.
    clear HP Hk HB HB64 Hm Hmax Hdeg HJ. intros Hi Hw Hfree. destruct t as [|c|io id ob|io id|c b|c b|r]; try done.
    - destruct Hw as [b Hb]. eexists. eapply polite; [exact Hi|by apply ClLock|done|done].
    - eexists. eapply polite; [exact Hi|by apply ClLockDel|done|done].
  Qed.
  Lemma free_moves s ts i t : ts !! i = Some t -> t <> TIdle -> Forall (fun t => ~ holds t) ts ->
    (forall j u, ts !! j = Some u -> ~ wants_lock C u) -> exists m, polite_step C (s, ts) m.
  Proof using.
    clear HP Hk HB HB64 Hm Hmax Hdeg HJ. intros Hi Hne Hfree Hnw.
    cut (exists vs s' t', cl_step C s ts i t vs s' t' /\ called vs = []).
    { intros (vs & s' & t' & Hs & Hc). eexists. by eapply polite. }
    assert (Hfx : Forall (fun t => ~ holds_x t) ts) by (eapply Forall_impl; [exact Hfree|]; intros u Hu Hx; by apply Hu, holds_x_holds).
    destruct t as [|c|io id ob|io id|c b|c b|r]; try done.
    - destruct c as [io level o|io ol|io ol|io id|ids|o k| |o| ].
      1-3, 8-9: by eexists [], _, _; split; [eapply ClLock|].
      2-3: by eexists [], _, _; split; [eapply ClRLock|].
      + destruct (objs s !! id_key id) as [ob|] eqn:E; [destruct (closed s) eqn:E2|]; eexists [], _, _; (split; [|done]).
        * by eapply ClLookClosed.
        * by eapply ClLook.
        * by eapply ClLookNone.
      + eexists [], _, _; split; [eapply ClSize|done]. unfold get_size. by rewrite exec_act.
    - destruct (vecs s !! id_key id) as [vb|] eqn:E; [|eexists [], _, _; split; [by eapply ClLook2None|done]].
      destruct (closed s) eqn:E2; [eexists [], _, _; split; [by eapply ClLook2Closed|done]|].
      destruct (de_props (cp_json C) ob) as [p|e|z] eqn:E3; [destruct (de_vec vb) as [v|e|z] eqn:E4|..].
      + eexists [], _, _; split; [by eapply ClLook2|done].
      + eexists [], _, _; split; [eapply ClLook2Err; [done|done|rewrite E3; cbn; by rewrite E4|done]|done].
      + eexists [], _, _; split; [eapply ClLook2Err; [done|done|rewrite E3; cbn; by rewrite E4|done]|done].
      + eexists [], _, _; split; [eapply ClLook2Err; [done|done|by rewrite E3|done]|done].
      + eexists [], _, _; split; [eapply ClLook2Err; [done|done|by rewrite E3|done]|done].
    - eexists [], _, _; split; [by eapply ClLockDel|done].
    - rewrite Forall_lookup in Hfree. by destruct (Hfree i _ Hi).
    - rewrite Forall_lookup in Hfree. by destruct (Hfree i _ Hi).
    - eexists _, _, _; split; [by eapply ClRet|done].
  Qed.

  Lemma holder_dec ts : (exists i t, ts !! i = Some t /\ holds t) \/ Forall (fun t => ~ holds t) ts.
  Proof using.
    clear. induction ts as [|t ts [(i & u & Hi & Hu)|IH]]; [by right|left; by exists (S i), u|].
    destruct t; try (right; constructor; [by intros []|done]); left; by eexists 0, _.
  Qed.
  Lemma wants_dec (ts : list client) : (exists i t, ts !! i = Some t /\ wants_lock C t) \/ forall i t, ts !! i = Some t -> ~ wants_lock C t.
  Proof using.
    clear. induction ts as [|t ts [(i & u & Hi & Hu)|IH]]; [by right|left; by exists (S i), u|].
    assert (wants_lock C t \/ ~ wants_lock C t) as [Ht|Ht].
    { destruct t as [|c| | | | |]; try (by right; intros []); [|by left]. cbn. destruct (xstart C c); [left; by eexists|right; by intros []]. }
    - left. by exists 0, t.
    - right. intros [|i] u Hi; [by injection Hi as <-|]. by eapply IH.
  Qed.
  Lemma rest_dec ts : at_rest ts \/ exists i t, ts !! i = Some t /\ t <> TIdle.
  Proof using.
    clear. induction ts as [|t ts [IH|(i & u & Hi & Hu)]]; [left; constructor| |right; by exists (S i), u].
    destruct t; try (right; by eexists 0, _). left. by constructor.
  Qed.
  Lemma somebody_moves vs s ts sa as' : rel C s ts sa as' -> good vs sa as' -> N0 + asked vs <= B ->
    at_rest ts \/ exists m, polite_step C (s, ts) m.
  Proof using HP Hk HB HB64 Hm Hmax Hdeg HJ.
    intros HR HG Hn. destruct (rest_dec ts) as [?|(i & t & Hi & Ht)]; [by left|right].
    destruct (holder_dec ts) as [(j & u & Hj & Hu)|Hf]; [|destruct (wants_dec ts) as [(j & u & Hj & Hu)|Hnw]; [by eapply wants_moves|by eapply free_moves]].
    destruct u as [| | | |c b|c b|]; try done.
    - destruct (x_moves _ _ _ _ _ _ _ _ HR HG Hn Hj) as [[r Hr]|(s' & b' & Hs)].
      + eexists. eapply polite; [exact Hj|by apply ClUnlock|done|done].
      + eexists. eapply polite; [exact Hj|by apply ClX|done|done].
    - destruct (y_moves _ _ _ _ _ _ _ _ HR HG Hn Hj) as [[r Hr]|(s' & b' & Hs)].
      + eexists. eapply polite; [exact Hj|by apply ClRUnlock|done|done].
      + eexists. eapply polite; [exact Hj|by apply ClR|done|done].
  Qed.
End safe.

(** ** Calls come to an end *)
(** One element of a list is replaced. *)
Definition upd {A} (R : A -> A -> Prop) (l l' : list A) : Prop := exists i a a', l !! i = Some a /\ R a a' /\ l' = <[i := a']> l.
Lemma upd_acc {A} (R : A -> A -> Prop) : (forall a, Acc (flip R) a) -> forall l, Acc (flip (upd R)) l.
Proof.
  intros HR l. induction l as [|p l IH].
  { constructor. intros l' (i & p & p' & Hi & _). done. }
  revert p. induction IH as [l _ IHl]. intros p.
  induction (HR p) as [p Hp IHp].
  constructor. intros l' (i & q & q' & Hi & Hs & ->). destruct i as [|i].
  - cbn in Hi. injection Hi as <-. cbn. apply IHp. done.
  - cbn in Hi. cbn. apply IHl. by exists i, q, q'.
Qed.

(** What a goroutine can do next, in a collection of any configuration; as in
    EarlyModel, a batch may give up on its workers, and any reader may start. *)
Definition bless (b b' : xbody) : Prop :=
  (exists C s s', xstep C s b s' b') \/ (exists two io ps r, b = XWork two io ps /\ b' = XEnd r).
Definition yless (b b' : rbody) : Prop := exists s s', ystep s b s' b'.
Definition tless (t t' : client) : Prop :=
  (exists C s ts i vs s', cl_step C s ts i t vs s' t' /\ called vs = []) \/
  (exists c b, t = TCall c /\ t' = TR c b) \/
  (exists c two io ps r, t = TX c (XWork two io ps) /\ t' = TX c (XEnd r)).

Lemma xend_acc r : Acc (flip bless) (XEnd r).
Proof. constructor. intros b' [(C & s & s' & H)|(? & ? & ? & ? & [=] & _)]. inversion H. Qed.
Lemma xwork_acc two io ps : Acc (flip bless) (XWork two io ps).
Proof.
  induction (lstep_acc ps) as [ps _ IH]. constructor. intros b' [(C & s & s' & H)|(? & ? & ? & ? & _ & ->)]; [|apply xend_acc].
  inversion H as [| | | | | |? ? ? ? ? ps' Hs| |]; subst.
  - apply IH. inversion Hs as [s0 ts0 i f s1 p' Hi Hf]; subst. exists i, (Step f), p'. split_and!; try done. by exists f, s, s'.
  - apply xend_acc.
  - apply xend_acc.
Qed.
Lemma bless_acc b : Acc (flip bless) b.
Proof.
  destruct b as [p|p|p|two io ol|two io ps|r].
  1-3: induction p as [r|f IH] using prog_ind'; constructor; intros b' [(C & s & s' & H)|(? & ? & ? & ? & [=] & _)]; inversion H; subst; by eapply IH.
  - constructor. intros b' [(C & s & s' & H)|(? & ? & ? & ? & [=] & _)]. inversion H; subst; [apply xend_acc|apply xwork_acc|apply xwork_acc].
  - apply xwork_acc.
  - apply xend_acc.
Qed.
Lemma yless_acc b : Acc (flip yless) b.
Proof.
  destruct b as [p|p]; induction p as [r|f IH] using prog_ind'; constructor; intros b' (s & s' & H); inversion H; subst; by eapply IH.
Qed.
Lemma tless_acc t : Acc (flip tless) t.
Proof.
  assert (H0 : Acc (flip tless) TIdle).
  { constructor. intros t' [(C & s & ts & i & vs & s' & H & Hc)|[(? & ? & [=] & _)|(? & ? & ? & ? & ? & [=] & _)]]. by inversion H; subst. }
  assert (H1 : forall r, Acc (flip tless) (TRet r)).
  { intros r. constructor. intros t' [(C & s & ts & i & vs & s' & H & Hc)|[(? & ? & [=] & _)|(? & ? & ? & ? & ? & [=] & _)]]. by inversion H; subst. }
  assert (HX : forall c b, Acc (flip tless) (TX c b)).
  { intros c b. induction (bless_acc b) as [b _ IH]. constructor. intros t' [(C & s & ts & i & vs & s' & H & Hc)|[(? & ? & [=] & _)|(? & two & io & ps & r & [= <- ->] & ->)]].
    - inversion H; subst; [|done]. apply IH. left. by eexists _, _, _.
    - apply IH. right. by eexists _, _, _, _. }
  assert (HY : forall c b, Acc (flip tless) (TR c b)).
  { intros c b. induction (yless_acc b) as [b _ IH]. constructor. intros t' [(C & s & ts & i & vs & s' & H & Hc)|[(? & ? & [=] & _)|(? & ? & ? & ? & ? & [=] & _)]].
    inversion H; subst; [|done]. apply IH. by eexists _, _. }
  assert (HW : forall io id, Acc (flip tless) (TWait io id)).
  { intros io id. constructor. intros t' [(C & s & ts & i & vs & s' & H & Hc)|[(? & ? & [=] & _)|(? & ? & ? & ? & ? & [=] & _)]]. by inversion H; subst. }
  assert (HL : forall io id ob, Acc (flip tless) (TLook io id ob)).
  { intros io id ob. constructor. intros t' [(C & s & ts & i & vs & s' & H & Hc)|[(? & ? & [=] & _)|(? & ? & ? & ? & ? & [=] & _)]]. by inversion H; subst. }
  destruct t as [|c|io id ob|io id|c b|c b|r]; [apply H0| |apply HL|apply HW|apply HX|apply HY|apply H1].
  constructor. intros t' [(C & s & ts & i & vs & s' & H & Hc)|[(c' & b' & [= <-] & ->)|(? & ? & ? & ? & ? & [=] & _)]]; [|apply HY].
  inversion H; subst; first [apply HX|apply HY|apply HL|apply H1].
Qed.
Lemma busy_acc C m : Acc (flip (busy_step C)) m.
Proof.
  destruct m as [s ts]. revert s. induction (upd_acc tless tless_acc ts) as [ts _ IH]. intros s. constructor. intros [s' ts'] (vs & Hs & Hc).
  inversion Hs as [s0 ts0 i t vs0 s0' t' Hi Hst]; subst. apply IH. exists i, t, t'. split_and!; [done| |done]. left. by eexists _, _, _, _, _, _.
Qed.
