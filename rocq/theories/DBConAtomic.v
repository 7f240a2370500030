(** The calls of a database used by several goroutines, one at a time. *)
From stdpp Require Import relations.
From Verif Require Import GoBase FloatModel HeapModel ProgModel StateModel WalModel HnswModel StoreModel CollModel CallModel LinModel EarlyModel DBModel DBConModel DBConSpec
  ProofBase WpProofs StepProofs StoreProofs LinProofs LinTrace EarlyTrace EarlyClose DBConProofs DBConTrace.
Open Scope nat_scope.

Lemma create_shut_err c D : exists e, create_shut c D = Err e.
Proof.
  unfold create_shut. destruct (db_closed D); [by eexists|]. destruct (validate c) as [u|e|z] eqn:E.
  - repeat case_match; by eexists.
  - by eexists.
  - exfalso. unfold validate, validate_hnsw in E. repeat (case_match; cbn in E); discriminate E.
Qed.
Lemma delete_shut_err n D : exists e, delete_shut n D = Err e.
Proof. unfold delete_shut. repeat case_match; by eexists. Qed.
Lemma set_closed_id s : closed s = true -> set_closed true s = s.
Proof. destruct s. cbn. by intros ->. Qed.
Lemma db_close_all_shut D : all_shut D ->
  db_close D = (DB (db_rows D) (db_next D) (db_files D) (db_colls D) (db_handles D) true, Val tt).
Proof.
  intros H. unfold db_close. f_equal. f_equal. apply list_eq. intros h. rewrite list_lookup_imap.
  destruct (db_handles D !! h) as [x|] eqn:Hx; [|done]. cbn. f_equal. case_bool_decide as Hin; [|done].
  destruct (H h Hin) as (y & Hy & Hc). rewrite Hx in Hy. injection Hy as <-. unfold close_handle. rewrite set_closed_id by done. by destruct x.
Qed.

Definition closing (g : gor) : Prop := match g with GLoop _ | GShut _ _ => True | _ => False end.
Definition abs (g : gor) : ogor :=
  match g with
  | GIdle => OIdle
  | GUse h => OUse h
  | GCall c | GLock c | GShare c => OWant c
  | GLoop _ | GShut _ _ => OWant DClose
  | GEnd c q | GRet c q | GFound c (inl q) => OHave c q
  | GFound c (inr h) => OGot c h
  | GConf (DConfig h) _ => OWant (DConfig h)
  | GConf c h => OGot c h
  end.

Section atomic.
  Context (env_embed : string -> jval -> embedder) (J : json) (maxv : N) (workers fuel : nat).
  Notation params c := (cparams_of env_embed J maxv workers fuel c).
  Notation cd_step := (cd_step env_embed J maxv workers fuel).
  Notation cd_run := (cd_run env_embed J maxv workers fuel).
  Notation ad_step := (ad_step env_embed J maxv workers fuel).
  Notation ad_run := (ad_run env_embed J maxv workers fuel).

  Lemma ad_run_app m v1 e1 m1 v2 e2 m2 : ad_run m v1 e1 m1 -> ad_run m1 v2 e2 m2 -> ad_run m (v1 ++ v2) (e1 ++ e2) m2.
  Proof.
    intros H1 H2. induction H2 as [|m1 w1 f1 m3 w2 f2 m4 _ IH Hs]; [by rewrite !app_nil_r|]. rewrite !app_assoc. econstructor; [by apply IH|done].
  Qed.
  Lemma ad_step_run m v e m' : ad_step m v e m' -> ad_run m v e m'.
  Proof. intros H. apply (AdSnoc _ _ _ _ _ m [] [] m v e m'); [constructor|done]. Qed.

  (** The metadata is closed at the start of Close, its effect is at the end. *)
  Definition mrel (gs : list gor) (meta b : bool) : Prop :=
    (Forall (fun g => ~ closing g) gs -> b = meta) /\ (forall i g, gs !! i = Some g -> closing g -> meta = true).
  Lemma mrel_put gs i g g' meta b meta' b' : mrel gs meta b -> gs !! i = Some g -> ~ closing g -> ~ closing g' ->
    (Forall (fun g => ~ closing g) gs -> b = meta -> b' = meta') -> (meta = true -> meta' = true) -> mrel (<[i := g']> gs) meta' b'.
  Proof.
    intros [H1 H2] Hi Hg Hg' Hb Hm. split.
    - intros Hf. assert (Forall (fun g => ~ closing g) gs) as Hf0.
      { apply Forall_lookup. intros j u Hj. destruct (decide (j = i)) as [->|Hne]; [congruence|].
        apply (Forall_lookup_1 _ _ j u Hf). by rewrite list_lookup_insert_ne. }
      by apply Hb, H1.
    - intros j u Hj Hu. destruct (decide (j = i)) as [->|Hne].
      + rewrite list_lookup_insert in Hj by (by eapply lookup_lt_Some). injection Hj as <-. done.
      + rewrite list_lookup_insert_ne in Hj by done. apply Hm. by eapply H2.
  Qed.
  Lemma mrel_in gs i g' b : i < length gs -> closing g' -> mrel (<[i := g']> gs) true b.
  Proof.
    intros Hi Hg. split; [|done]. intros Hf. exfalso. apply (Forall_lookup_1 _ _ i g' Hf); [by apply list_lookup_insert|done].
  Qed.
  (** The goroutine in Close leaves. *)
  Lemma mrel_out (gs : list gor) i g g' : (forall i j a b, gs !! i = Some a -> gs !! j = Some b -> dholds_x a -> dholds b -> i = j) ->
    gs !! i = Some g -> closing g -> ~ closing g' -> mrel (<[i := g']> gs) true true.
  Proof. intros He Hi Hg Hg'. split; [done|]. done. Qed.

  Lemma abs_put (gs : list gor) i g g' : gs !! i = Some g -> abs g' = abs g -> abs <$> <[i := g']> gs = abs <$> gs.
  Proof. intros Hi E. rewrite list_fmap_insert, E. apply list_insert_id. by rewrite list_lookup_fmap, Hi. Qed.
  Lemma abs_at (gs : list gor) i g : gs !! i = Some g -> (abs <$> gs) !! i = Some (abs g).
  Proof. intros Hi. by rewrite list_lookup_fmap, Hi. Qed.

  Lemma no_closing (gs : list gor) i g : (forall i j a b, gs !! i = Some a -> gs !! j = Some b -> dholds_x a -> dholds b -> i = j) ->
    gs !! i = Some g -> dholds_x g -> ~ closing g -> Forall (fun g => ~ closing g) gs.
  Proof.
    intros He Hi Hx Hc. apply Forall_lookup. intros j u Hj Hu. destruct (decide (i = j)) as [->|Hne]; [congruence|]. apply Hne.
    eapply He; [exact Hi|exact Hj|done|]. by destruct u.
  Qed.

  Lemma sim_step D sd meta gs vs D' sd' meta' gs' b : cd_step (CDB D sd meta gs) vs (CDB D' sd' meta' gs') -> jinv (CDB D sd meta gs) -> mrel gs meta b ->
    exists es b', ad_run (D, sd, b, abs <$> gs) vs es (D', sd', b', abs <$> gs') /\ mrel gs' meta' b'.
  Proof.
    intros Hs HJ HM. inversion Hs as [? ? ? ? i g v ? ? g' Hi Ho|? ? ? ? k y C ts1 ws1 v s' ts' ws' dvs ? Hy Hd HC He Hev]; subst.
    - assert (Hsd : length (db_handles D') = length (db_handles D) -> sd ++ replicate (length (db_handles D') - length sd) (unused (length gs)) = sd).
      { intros E. pose proof (j_len _ HJ) as El. cbn [cd_side cd_db] in El. rewrite E, El, Nat.sub_diag. apply app_nil_r. }
      pose proof (lookup_lt_Some _ _ _ Hi) as Hlt. pose proof (j_excl _ HJ) as Hex. cbn [cd_gs] in Hex.
      pose proof (abs_at _ _ _ Hi) as Ha.
      assert (Hstay : forall u, abs u = abs g -> ~ closing g -> ~ closing u -> D' = D -> meta' = meta ->
        exists es b', ad_run (D, sd, b, abs <$> gs) [] es (D', sd ++ replicate (length (db_handles D') - length sd) (unused (length gs)), b', abs <$> <[i := u]> gs) /\ mrel (<[i := u]> gs) meta' b').
      { intros u Eu Hg Hu -> ->. exists [], b. rewrite Hsd by done. rewrite (abs_put _ _ _ _ Hi Eu). split; [constructor|].
        eapply mrel_put; [exact HM|exact Hi|done|done|done|done]. }
      assert (Hgo : forall u w es b1, ~ closing g -> ~ closing u -> b1 = b -> D' = D -> meta' = meta -> ad_step (D, sd, b, abs <$> gs) w es (D, sd, b, <[i := abs u]> (abs <$> gs)) ->
        exists es b', ad_run (D, sd, b, abs <$> gs) w es (D', sd ++ replicate (length (db_handles D') - length sd) (unused (length gs)), b', abs <$> <[i := u]> gs) /\ mrel (<[i := u]> gs) meta' b').
      { intros u w es b1 Hg Hu _ -> -> Hst. exists es, b. rewrite Hsd by done. rewrite list_fmap_insert. split; [by apply ad_step_run|].
        eapply mrel_put; [exact HM|exact Hi|done|done|done|done]. }
      assert (Heff : forall u c q b1, ~ closing u -> abs u = OHave c q -> abs g = OWant c -> deffect D b c D' b1 q -> mrel (<[i := u]> gs) meta' b1 ->
        exists es b', ad_run (D, sd, b, abs <$> gs) [] es (D', sd ++ replicate (length (db_handles D') - length sd) (unused (length gs)), b', abs <$> <[i := u]> gs) /\ mrel (<[i := u]> gs) meta' b').
      { intros u c q b1 Hu Eu Eg Hef Hm. exists [(c, q)], b1. split; [|done]. rewrite list_fmap_insert, Eu. rewrite Eg in Ha. apply ad_step_run.
        pose proof (AdEffect env_embed J maxv workers fuel D sd b (abs <$> gs) i c D' b1 q Ha Hef) as H. by rewrite fmap_length in H. }
      inversion Ho as [c1|c1 Hm Hf|c1 D1 r Hcr|n D1 r Hcr|todo Ht|h x todo Hl1 Hcl| |c1 q|c1 Hm Hf|n|n h Hh|n e Hh|c1 q|c1 h|h|h x Hl1|n h x a Hl1 Hca|c1 q]; subst.
      + eapply Hgo; try done; try (by intros []). by apply AdCall.
      + apply Hstay; try done; by intros [].
      + assert (b = meta') as -> by (apply (proj1 HM); eapply no_closing; [done|exact Hi|done|by intros []]).
        eapply (Heff _ _ _ meta'); try done; try (by intros []).
        * unfold do_create in Hcr. destruct meta'; [|by apply DfCreate]. injection Hcr as <- <-. destruct (create_shut_err c1 D) as [e ->]. apply DfCreateShut.
        * eapply mrel_put; [exact HM|exact Hi|by intros []|by intros []|done|done].
      + assert (b = meta') as -> by (apply (proj1 HM); eapply no_closing; [done|exact Hi|done|by intros []]).
        eapply (Heff _ _ _ meta'); try done; try (by intros []).
        * unfold do_delete in Hcr. destruct meta'; [|by apply DfDelete]. injection Hcr as <- <-. destruct (delete_shut_err n D) as [e ->]. apply DfDeleteShut.
        * eapply mrel_put; [exact HM|exact Hi|by intros []|by intros []|done|done].
      + exists [], b. rewrite Hsd by done. rewrite (abs_put _ _ _ _ Hi) by done. split; [constructor|by apply mrel_in].
      + exists [], b. rewrite Hsd by done. rewrite (abs_put _ _ _ _ Hi) by done. split; [constructor|].
        rewrite (proj2 HM _ _ Hi I). by apply mrel_in.
      + pose proof (proj2 HM _ _ Hi I) as ->. eapply (Heff _ DClose _ true); try done; try (by intros []).
        apply DfClose. apply db_close_all_shut. intros h Hin. pose proof (j_gs _ HJ _ _ Hi) as Hok. cbn [gok cd_db] in Hok.
          destruct (Hok _ Hin) as [Hn|]; [by apply elem_of_nil in Hn|done].
      + apply Hstay; try done; by intros [].
      + apply Hstay; try done; by intros [].
      + eapply (Heff _ (DGet n) _ b); try done; try (by intros []); [apply DfGet|]. eapply mrel_put; [exact HM|exact Hi|by intros []|by intros []|done|done].
      + eapply Hgo; try done; try (by intros []). by eapply AdRest1.
      + eapply Hgo; try done; try (by intros []). by eapply AdRest1Err.
      + apply Hstay; try done; by intros [].
      + apply Hstay; try done; try (by intros []). destruct (j_gs _ HJ _ _ Hi) as [n ->]. done.
      + apply Hstay; try done; by intros [].
      + eapply (Heff _ (DConfig h) _ b); try done; try (by intros []); [by apply DfConfig|]. eapply mrel_put; [exact HM|exact Hi|by intros []|by intros []|done|done].
      + eapply Hgo; try done; try (by intros []). by eapply AdRest2.
      + eapply Hgo; try done; try (by intros []). by apply AdRet.
    - pose proof (j_excl _ HJ) as Hex. cbn [cd_gs] in Hex.
      assert (Hon : forall os', o_ev k v (abs <$> gs) vs os' -> ad_run (D, sd, b, abs <$> gs) vs [] (use k y s' D, <[k := (ts', ws')]> sd, b, os')).
      { intros os' Ho. apply ad_step_run. by eapply AdOn. }
      inversion Hev as [|? k1 c1 Hk|? k1 r Hk|? k1 todo1 Hk Hcl|? k1 todo1 Hk|? k1 todo1 e Hk]; subst.
      + exists [], b. split; [apply Hon; constructor|done].
      + exists [], b. split; [apply Hon; rewrite list_fmap_insert; constructor; by rewrite (abs_at _ _ _ Hk)|].
        eapply mrel_put; [exact HM|exact Hk|by intros []|by intros []|done|done].
      + exists [], b. split; [apply Hon; rewrite list_fmap_insert; constructor; by rewrite (abs_at _ _ _ Hk)|].
        eapply mrel_put; [exact HM|exact Hk|by intros []|by intros []|done|done].
      + exists [], b. split; [apply Hon; rewrite (abs_put _ _ _ _ Hk) by done; constructor; by rewrite (abs_at _ _ _ Hk)|].
        pose proof (proj2 HM _ _ Hk I) as ->. apply mrel_in; [by eapply lookup_lt_Some|done].
      + exists [], b. split; [apply Hon; rewrite (abs_put _ _ _ _ Hk) by done; constructor; by rewrite (abs_at _ _ _ Hk)|].
        pose proof (proj2 HM _ _ Hk I) as ->. apply mrel_in; [by eapply lookup_lt_Some|done].
      + assert (e = EFileClosed) as ->.
        { pose proof (close_answers _ _ _ _ _ _ _ _ _ _ _ _ _ _ _ HJ Hy Hd Hk He) as [[[=] _]|H]. by injection H. }
        exists ([] ++ [(DClose, QUnit (Err EFileClosed))]), true. pose proof (proj2 HM _ _ Hk I) as ->. split; [|eapply mrel_out; [done|eassumption|done|by intros []]].
        replace [DvShut k (VRet k1 (RUnit (Err EFileClosed)))] with ([DvShut k (VRet k1 (RUnit (Err EFileClosed)))] ++ []) by done.
        econstructor; [apply Hon; constructor; by rewrite (abs_at _ _ _ Hk)|]. rewrite list_fmap_insert. cbn [abs].
        pose proof (AdEffect env_embed J maxv workers fuel (use k y s' D) (<[k := (ts', ws')]> sd) b (abs <$> gs) k1 DClose (use k y s' D) true (QUnit (Err EFileClosed))) as H.
        rewrite (abs_at _ _ _ Hk) in H. specialize (H eq_refl (DfCloseFail _ _)).
        assert (length (db_handles (use k y s' D)) - length (<[k := (ts', ws')]> sd) = 0) as E.
        { cbn [use db_handles]. rewrite !insert_length. pose proof (j_len _ HJ) as Hl. cbn [cd_side cd_db] in Hl. lia. }
        rewrite E in H. cbn [replicate] in H. by rewrite app_nil_r in H.
  Qed.

  Lemma sim_run m vs m' : cd_run m vs m' -> jinv m -> forall b, mrel (cd_gs m) (cd_meta m) b ->
    exists es b', ad_run (cd_db m, cd_side m, b, abs <$> cd_gs m) vs es (cd_db m', cd_side m', b', abs <$> cd_gs m') /\ mrel (cd_gs m') (cd_meta m') b'.
  Proof.
    induction 1 as [m|m v1 m1 v2 m2 Hr IH Hs]; intros HJ b HM; [exists [], b; split; [constructor|done]|].
    destruct (IH HJ b HM) as (es & b1 & R1 & M1). assert (jinv m1) as HJ1 by (by eapply jinv_run).
    destruct m1 as [D1 sd1 meta1 gs1], m2 as [D2 sd2 meta2 gs2]. cbn [cd_db cd_side cd_meta cd_gs] in *.
    destruct (sim_step _ _ _ _ _ _ _ _ _ _ Hs HJ1 M1) as (es2 & b2 & R2 & M2). exists (es ++ es2), b2. split; [|done]. by eapply ad_run_app.
  Qed.
  Lemma mrel_start n : mrel (replicate n GIdle) false false.
  Proof. split; [done|]. intros i g Hi. apply lookup_replicate in Hi as [-> _]. by intros []. Qed.

  (** ** The names *)
  Lemma create_colls c D D' r : create_collection c D = (D', r) ->
    db_colls D' = named_step (db_colls D) (DCreate c, QColl r) /\ (forall h, r = Val h -> db_colls D !! cf_name c = None).
  Proof.
    unfold create_collection. destruct (db_closed D); [by intros [= <- <-]|]. destruct (validate c); try (by intros [= <- <-]).
    destruct (db_colls D !! cf_name c) eqn:En; [by intros [= <- <-]|].
    destruct (meta_create c D) as [D1 r1] eqn:E1. destruct (meta_create_keeps _ _ _ _ E1) as (_ & H2 & _).
    destruct r1 as [i|e|z]; try (by intros [= <- <-]).
    destruct (new_collection c (db_files D1 !! cf_name c)) as [x|e|z]; intros [= <- <-]; [|done|done]. cbn. by rewrite H2.
  Qed.
  Lemma delete_colls n D D' r : delete_collection n D = (D', r) -> db_colls D' = named_step (db_colls D) (DDelete n, QUnit r).
  Proof. unfold delete_collection. repeat case_match; by intros [= <- <-]. Qed.
  Lemma effect_colls D b c D' b' q : deffect D b c D' b' q -> db_colls D' = named_step (db_colls D) (c, q).
  Proof.
    intros H. inversion H as [c1 D1 r Hc| |n D1 r Hc| | |D1 b1 Hc| | ]; subst; try done.
    - by apply create_colls in Hc as [-> _].
    - by apply delete_colls in Hc.
    - unfold db_close in Hc. by injection Hc as <-.
  Qed.
  Lemma ad_colls m vs es m' : ad_run m vs es m' -> db_colls m'.1.1.1 = named (db_colls m.1.1.1) es.
  Proof.
    induction 1 as [m|m v1 e1 m1 v2 e2 m2 _ IH Hs]; [done|]. unfold named in *. rewrite foldl_app, <- IH.
    inversion Hs as [|D sd b os i c D' b' q Hi He| | | | | ]; subst; cbn [fst snd foldl]; try done. by apply effect_colls in He.
  Qed.
  Lemma ad_prefix m vs es m' e1 c q e2 : ad_run m vs es m' -> es = e1 ++ (c, q) :: e2 ->
    exists D b D' b', db_colls D = named (db_colls m.1.1.1) e1 /\ deffect D b c D' b' q.
  Proof.
    intros Hr. revert e1 e2. induction Hr as [m|m v1 f1 m1 v2 f2 m2 Hr IH Hs]; intros e1 e2 E; [by destruct e1|].
    assert (f2 = [] \/ exists c' q' D b D' b', f2 = [(c', q')] /\ D = m1.1.1.1 /\ deffect D b c' D' b' q') as [->|(c' & q' & D & b & D' & b' & -> & -> & He)].
    { inversion Hs as [|D sd b os i c' D' b' q' Hi He| | | | | ]; subst; try (by left). right. by exists c', q', D, b, D', b'. }
    - rewrite app_nil_r in E. by eapply IH.
    - destruct e2 as [|e e2 _] using rev_ind.
      + apply app_inj_tail in E as [-> E]. injection E as -> ->. exists m1.1.1.1, b, D', b'. split; [|done]. by apply ad_colls in Hr.
      + rewrite app_comm_cons, app_assoc in E. apply app_inj_tail in E as [-> _]. by eapply IH.
  Qed.
  Lemma named_keeps m es n : is_Some (m !! n) -> (forall u, (DDelete n, QUnit (Val u)) ∉ es) -> is_Some (named m es !! n).
  Proof.
    revert m. induction es as [|e es IH]; intros m Hm Hd; [done|]. apply IH; [|intros u Hin; apply (Hd u); by right].
    assert (Hne : forall u, e <> (DDelete n, QUnit (Val u))) by (intros u ->; apply (Hd u); by left).
    destruct e as [[c|n'| | | | ] [[h| | ]|[u| | ]| | ]]; cbn [named_step]; try done.
    - destruct (decide (cf_name c = n)) as [->|]; [rewrite lookup_insert; by eexists|by rewrite lookup_insert_ne].
    - rewrite lookup_delete_ne; [done|]. intros ->. by apply (Hne u).
  Qed.

  (** ** GET /v1/collection/{name} *)
  Lemma still_step m vs m' : cd_step m vs m' -> jinv m -> forall h x, db_handles (cd_db m) !! h = Some x ->
    exists x', db_handles (cd_db m') !! h = Some x' /\ hd_cfg x' = hd_cfg x /\ still (hd_st x) (hd_st x').
  Proof.
    intros Hs HJ h x Hx. inversion Hs as [D sd meta gs i g v D' meta' g' Hi Ho|D sd meta gs k y C ts1 ws1 v s' ts' ws' dvs gs' Hy Hd HC He Hev]; subst; cbn [cd_db] in *.
    - destruct (own_grows _ _ _ _ _ _ _ _ _ Ho) as (Hg & _). exists x. split; [by eapply grows_lookup|]. done.
    - destruct (jinv_on _ _ _ _ _ _ _ _ _ _ _ _ _ _ _ HJ Hy Hd He Hev) as [_ Hst]. rewrite (use_handles _ _ _ _ _ Hy). destruct (decide (h = k)) as [->|]; [|by exists x].
      rewrite Hy in Hx. injection Hx as ->. by eexists.
  Qed.
  Lemma still_run m vs m' : cd_run m vs m' -> jinv m -> forall h x, db_handles (cd_db m) !! h = Some x ->
    exists x', db_handles (cd_db m') !! h = Some x' /\ hd_cfg x' = hd_cfg x /\ still (hd_st x) (hd_st x').
  Proof.
    induction 1 as [m|m v1 m1 v2 m2 Hr IH Hs]; intros HJ h x Hx; [by exists x|]. destruct (IH HJ _ _ Hx) as (x1 & H1 & E1 & S1).
    assert (jinv m1) as HJ1 by (by eapply jinv_run). destruct (still_step _ _ _ Hs HJ1 _ _ H1) as (x2 & H2 & E2 & S2). exists x2.
    split; [done|]. split; [congruence|by eapply still_trans].
  Qed.
  (** The map points at handles. *)
  Definition pointed (D : db) : Prop := forall n h, db_colls D !! n = Some h -> is_Some (db_handles D !! h).
  Lemma pointed_create c D D' r : create_collection c D = (D', r) -> pointed D -> pointed D'.
  Proof.
    intros Hc HP n h. destruct (create_colls _ _ _ _ Hc) as [E _]. destruct (create_grows _ _ _ _ Hc) as [Hg _].
    assert (Hold : db_colls D !! n = Some h -> is_Some (db_handles D' !! h)).
    { intros Hn. destruct (HP _ _ Hn) as [x Hx]. exists x. by eapply grows_lookup. }
    rewrite E. destruct r as [k|e|z]; cbn [named_step]; [|done|done]. destruct (decide (cf_name c = n)) as [<-|Hne]; [|by rewrite lookup_insert_ne].
    rewrite lookup_insert. intros [= <-]. revert Hc. unfold create_collection. repeat case_match; intros [= <- <-]; cbn [db_handles]; rewrite lookup_app_r, Nat.sub_diag by done; by eexists.
  Qed.
  Lemma pointed_step m vs m' : cd_step m vs m' -> pointed (cd_db m) -> pointed (cd_db m').
  Proof.
    intros Hs HP. inversion Hs as [D sd meta gs i g v D' meta' g' Hi Ho|D sd meta gs k y C ts1 ws1 v s' ts' ws' dvs gs' Hy Hd HC He Hev]; subst; cbn [cd_db] in *.
    - inversion Ho as [| |c D1 r Hc|n D1 r Hc| | | | | | | | | | | | | | ]; subst; try done.
      + unfold do_create in Hc. destruct meta'; [by injection Hc as <- <-|]. by eapply pointed_create.
      + unfold do_delete in Hc. destruct meta'; [by injection Hc as <- <-|]. intros n' h. pose proof (delete_colls _ _ _ _ Hc) as E.
        destruct (do_delete_keeps n false D D' r Hc) as [-> _]. rewrite E. destruct r; cbn [named_step]; [|apply HP|apply HP].
        intros H. apply lookup_delete_Some in H as [_ H]. by apply (HP n').
    - intros n h Hn. destruct (HP _ _ Hn) as [x Hx]. rewrite (use_handles _ _ _ _ _ Hy). destruct (decide (h = k)); [by eexists|by exists x].
  Qed.
  Lemma pointed_run m vs m' : cd_run m vs m' -> pointed (cd_db m) -> pointed (cd_db m').
  Proof. induction 1 as [|m v1 m1 v2 m2 _ IH Hs]; [done|]. intros H. eapply pointed_step; [exact Hs|by apply IH]. Qed.

  Section rest.
    Context (m0 : cdb) (name : string).
    (** A moment since [m0]. *)
    Definition once_found (vs : list dvis) (m : cdb) (h : nat) : Prop :=
      exists va vb ma, vs = va ++ vb /\ cd_run m0 va ma /\ cd_run ma vb m /\ get_collection name (cd_db ma) = Val h.
    Definition once_answer (vs : list dvis) (m : cdb) (a : N * DBModel.payload) : Prop :=
      exists va vb ma, vs = va ++ vb /\ cd_run m0 va ma /\ cd_run ma vb m /\
        (rest_get name (cd_db ma) = Some a \/
         exists h vc vd mb, get_collection name (cd_db ma) = Val h /\ a = (500%N, PError ECollectionClosed) /\
           vb = vc ++ vd /\ cd_run ma vc mb /\ cd_run mb vd m /\ shut (cd_db mb) h).
    Definition resting (vs : list dvis) (m : cdb) (g : gor) : Prop :=
      match g with
      | GCall c | GShare c => c = DRest name
      | GFound c (inl q) | GRet c q => c = DRest name /\ exists a, q = QRest a /\ once_answer vs m a
      | GFound c (inr h) | GConf c h => c = DRest name /\ once_found vs m h
      | _ => False
      end.
    Lemma once_found_more vs m h v m' : once_found vs m h -> cd_run m v m' -> once_found (vs ++ v) m' h.
    Proof.
      intros (va & vb & ma & -> & R1 & R2 & H) R. exists va, (vb ++ v), ma. split; [by rewrite app_assoc|]. split; [done|]. split; [by eapply cd_run_app|done].
    Qed.
    Lemma once_answer_more vs m a v m' : once_answer vs m a -> cd_run m v m' -> once_answer (vs ++ v) m' a.
    Proof.
      intros (va & vb & ma & -> & R1 & R2 & H) R. exists va, (vb ++ v), ma. split; [by rewrite app_assoc|]. split; [done|]. split; [by eapply cd_run_app|].
      destruct H as [H|(h & vc & vd & mb & H1 & H2 & -> & H4 & H5 & H6)]; [by left|right].
      exists h, vc, (vd ++ v), mb. split; [done|]. split; [done|]. split; [by rewrite app_assoc|]. split; [done|]. split; [by eapply cd_run_app|done].
    Qed.
    Lemma resting_more vs m g v m' : resting vs m g -> cd_run m v m' -> resting (vs ++ v) m' g.
    Proof.
      intros H R. destruct g as [| | | | | | | |c []| | ]; cbn [resting] in *; try done.
      - destruct H as (-> & a & -> & H). split; [done|]. exists a. split; [done|by eapply once_answer_more].
      - destruct H as (-> & H). split; [done|by eapply once_found_more].
      - destruct H as (-> & H). split; [done|by eapply once_found_more].
      - destruct H as (-> & a & -> & H). split; [done|]. exists a. split; [done|by eapply once_answer_more].
    Qed.
    Lemma rest_err m e : get_collection name (cd_db m) = Err e -> rest_get name (cd_db m) = Some (err_response e).
    Proof. unfold rest_get. by intros ->. Qed.
    Lemma resting_step vs m v m' i : cd_run m0 vs m -> cd_step m v m' -> jinv m0 -> pointed (cd_db m0) ->
      (exists g, cd_gs m !! i = Some g /\ resting vs m g) ->
      (no_dret i v /\ exists g, cd_gs m' !! i = Some g /\ resting (vs ++ v) m' g) \/
      (exists a, v = [DvRet i (DRest name) (QRest a)] /\ once_answer vs m a).
    Proof.
      intros Hr Hs HJ0 HP0 (g & Hg & HR).
      assert (Hnil : no_dret i []) by (intros c1 q1 Hin; by apply elem_of_nil in Hin).
      pose proof (cd_step_run _ _ _ _ _ _ _ _ Hs) as Hone. pose proof (resting_more _ _ _ _ _ HR Hone) as Hmore.
      inversion Hs as [D sd meta gs j g1 w D' meta' g' Hi Ho|D sd meta gs k y C ts1 ws1 w s' ts' ws' dvs gs' Hy Hd HC He Hev]; subst; cbn [cd_db cd_gs] in *.
      - destruct (decide (j = i)) as [->|Hne].
        + rewrite Hg in Hi. injection Hi as <-. rewrite list_lookup_insert by (by eapply lookup_lt_Some).
          inversion Ho as [c1|c1 Hm Hf|c1 D1 r Hcr|n D1 r Hcr|todo Ht|h x todo Hl Hcl| |c1 q|c1 Hm Hf|n|n h Hh|n e Hh|c1 q|c1 h|h|h x Hl|n h x a Hl Ha|c1 q]; subst; cbn [resting] in HR; try done.
          * subst c1. done.
          * left. split; [done|]. by eexists.
          * injection HR as ->. left. split; [done|]. eexists. split; [done|]. cbn [resting]. split; [done|].
            eexists (vs ++ []), [], _. split; [by rewrite !app_nil_r|]. split; [eapply cd_run_app; [exact Hr|exact Hone]|]. split; [constructor|done].
          * injection HR as ->. left. split; [done|]. eexists. split; [done|]. cbn [resting]. split; [done|]. eexists. split; [done|].
            eexists (vs ++ []), [], _. split; [by rewrite !app_nil_r|]. split; [eapply cd_run_app; [exact Hr|exact Hone]|]. split; [constructor|]. left. by apply rest_err.
          * left. split; [done|]. eexists. split; [done|]. exact Hmore.
          * left. split; [done|]. eexists. split; [done|]. exact Hmore.
          * by destruct HR.
          * destruct HR as [E HR]. injection E as ->. left. split; [done|]. eexists. split; [done|]. cbn [resting]. split; [done|]. exists a. split; [done|].
            eapply once_answer_more; [|exact Hone].
            destruct HR as (va & vb & ma & -> & R1 & R2 & Hf). exists va, vb, ma. split; [done|]. split; [done|]. split; [done|].
            assert (jinv ma) as HJa by (by eapply jinv_run). assert (pointed (cd_db ma)) as HPa by (by eapply pointed_run).
            assert (is_Some (db_handles (cd_db ma) !! h)) as [xa Hxa].
            { apply (HPa name). unfold get_collection in Hf. destruct (db_closed (cd_db ma)); [done|]. destruct (db_colls (cd_db ma) !! name); [|done]. by injection Hf as ->. }
            destruct (still_run _ _ _ R2 HJa _ _ Hxa) as (x2 & Hx2 & Ecfg & Hst). cbn [cd_db] in Hx2. rewrite Hl in Hx2. injection Hx2 as <-.
            unfold get_config in Ha. destruct (closed (hd_st x)) eqn:Hcl; cbn in Ha; injection Ha as <-.
            -- right. exists h, vb, [], (CDB D' sd meta' gs). split; [done|]. split; [done|]. split; [by rewrite app_nil_r|]. split; [done|]. split; [constructor|]. by exists x.
            -- left. unfold rest_get. rewrite Hf. cbn. rewrite Hxa. cbn. unfold get_config.
               destruct (closed (hd_st xa)) eqn:Hca; [destruct (Hst Hca); congruence|]. by rewrite Ecfg.
          * destruct HR as (-> & a & -> & HR). right. by exists a.
        + left. rewrite list_lookup_insert_ne by done. split; [|by exists g].
          inversion Ho; subst; try done; intros c1 q1 Hin; apply elem_of_list_singleton in Hin; congruence.
      - left. assert (no_dret i v) as Hno. { inversion Hev; subst; try done; intros c1 q1 Hin; apply elem_of_list_singleton in Hin; congruence. }
        split; [done|].
        inversion Hev as [|? k1 c1 Hk|? k1 r Hk|? k1 todo Hk Hcl|? k1 todo Hk|? k1 todo e Hk]; subst; [by exists g|..];
          (destruct (decide (k1 = i)) as [->|Hne]; [|rewrite list_lookup_insert_ne by done; by exists g]);
          rewrite Hg in Hk; injection Hk as ->; done.
    Qed.
    Lemma resting_run v m' i : jinv m0 -> pointed (cd_db m0) -> (exists g, cd_gs m0 !! i = Some g /\ resting [] m0 g) ->
      cd_run m0 v m' -> no_dret i v -> exists g, cd_gs m' !! i = Some g /\ resting v m' g.
    Proof.
      intros HJ HP H0 Hr. remember m0 as mm eqn:E in Hr. induction Hr as [m|m v1 m1 v2 m2 Hr IH Hs]; intros Hno; subst m; [done|].
      destruct (resting_step v1 m1 v2 m2 i Hr Hs HJ HP) as [[_ H]|(a & -> & _)].
      - apply IH; [done|]. intros c q Hin. apply (Hno c q). set_solver.
      - done.
      - exfalso. apply (Hno (DRest name) (QRest a)). set_solver.
    Qed.
  End rest.
End atomic.
