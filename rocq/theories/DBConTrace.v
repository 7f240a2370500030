(** Runs of a database used by several goroutines. *)
From stdpp Require Import relations.
From Verif Require Import GoBase FloatModel HeapModel ProgModel StateModel WalModel HnswModel StoreModel CollModel CallModel LinModel EarlyModel DBModel DBConModel DBConSpec
  ProofBase WpProofs StepProofs StoreProofs LinProofs LinTrace EarlyTrace EarlyClose DBConProofs.
Open Scope nat_scope.

Lemma seen_in_app h a b : seen_in h (a ++ b) = seen_in h a ++ seen_in h b.
Proof. apply bind_app. Qed.

Section trace.
  Context (env_embed : string -> jval -> embedder) (J : json) (maxv : N) (workers fuel : nat).
  Notation params c := (cparams_of env_embed J maxv workers fuel c).
  Notation cd_step := (cd_step env_embed J maxv workers fuel).
  Notation cd_run := (cd_run env_embed J maxv workers fuel).
  Notation ad_step := (ad_step env_embed J maxv workers fuel).
  Notation ad_run := (ad_run env_embed J maxv workers fuel).

  (** ** Splitting runs *)
  Lemma cd_run_app m v1 m1 v2 m2 : cd_run m v1 m1 -> cd_run m1 v2 m2 -> cd_run m (v1 ++ v2) m2.
  Proof.
    intros H1 H2. induction H2 as [|m1 w1 m3 w2 m4 _ IH Hs]; [by rewrite app_nil_r|]. rewrite app_assoc. econstructor; [by apply IH|done].
  Qed.
  Lemma cd_step_run m v m' : cd_step m v m' -> cd_run m v m'.
  Proof. intros H. apply (CdSnoc _ _ _ _ _ m [] m v m'); [constructor|done]. Qed.
  Lemma cd_step_short m v m' : cd_step m v m' -> v = [] \/ exists e, v = [e].
  Proof.
    intros H. inversion H as [? ? ? ? ? ? ? ? ? ? ? Ho|? ? ? ? ? ? ? ? ? ? ? ? ? ? ? ? ? ? ? Hev]; subst.
    - inversion Ho; subst; try (by left); right; by eexists.
    - inversion Hev; subst; try (by left); right; by eexists.
  Qed.
  Lemma cd_run_split m v m' v1 e v2 : cd_run m v m' -> v = v1 ++ e :: v2 ->
    exists ma mb, cd_run m v1 ma /\ cd_step ma [e] mb /\ cd_run mb v2 m'.
  Proof.
    intros Hr. revert v1 e v2. induction Hr as [|m w1 m1 w2 m2 Hr IH Hs]; intros v1 e v2 E; [by destruct v1|].
    destruct (cd_step_short _ _ _ Hs) as [->|[f ->]].
    - rewrite app_nil_r in E. destruct (IH _ _ _ E) as (ma & mb & R1 & S1 & R2). exists ma, mb. split; [done|]. split; [done|].
      replace v2 with (v2 ++ []) by apply app_nil_r. by econstructor.
    - destruct v2 as [|g v2] using rev_ind.
      + apply app_inj_tail in E as [-> ->]. exists m1, m2. split; [done|]. split; [done|constructor].
      + rewrite app_comm_cons, app_assoc in E. apply app_inj_tail in E as [-> ->].
        destruct (IH _ _ _ eq_refl) as (ma & mb & R1 & S1 & R2). exists ma, mb. split; [done|]. split; [done|]. by econstructor.
  Qed.
  Lemma cd_run_cut m v1 v2 m' : cd_run m (v1 ++ v2) m' -> exists m1, cd_run m v1 m1 /\ cd_run m1 v2 m'.
  Proof.
    destruct v2 as [|e v2]; [rewrite app_nil_r; intros H; exists m'; split; [done|constructor]|].
    intros H. destruct (cd_run_split _ _ _ _ _ _ H eq_refl) as (ma & mb & R1 & S1 & R2). exists ma. split; [done|].
    change (e :: v2) with ([e] ++ v2). eapply cd_run_app; [by apply cd_step_run|done].
  Qed.

  (** ** Each collection on its own *)
  Lemma own_seen D meta gs i g vs D' meta' g' h : own_step D meta gs i g vs D' meta' g' -> seen_in h vs = [].
  Proof. intros H. by inversion H; subst. Qed.
  Lemma on_seen k s vs gs dvs gs' h : on_ev k s vs gs dvs gs' -> seen_in h dvs = if decide (k = h) then vs else [].
  Proof.
    intros H. assert ((k =? h) = bool_decide (k = h)) as E by (destruct (Nat.eqb_spec k h); by case_bool_decide).
    inversion H; subst; cbn; rewrite ?E; case_bool_decide; by destruct (decide _).
  Qed.
  Lemma own_len D meta gs i g vs D' meta' g' : own_step D meta gs i g vs D' meta' g' -> length (<[i := g']> gs) = length gs.
  Proof. intros _. apply insert_length. Qed.
  Lemma on_len k s vs gs dvs gs' : on_ev k s vs gs dvs gs' -> length gs' = length gs.
  Proof. intros H. inversion H; subst; rewrite ?insert_length; done. Qed.

  Lemma proj_step m vs m' : cd_step m vs m' -> forall h x ts ws,
    db_handles (cd_db m) !! h = Some x -> cd_side m !! h = Some (ts, ws) ->
    exists x' ts' ws', db_handles (cd_db m') !! h = Some x' /\ cd_side m' !! h = Some (ts', ws') /\ hd_cfg x' = hd_cfg x /\
      (params (hd_cfg x) = None -> seen_in h vs = []) /\
      forall C, params (hd_cfg x) = Some C -> erun C (hd_st x, ts, ws) (seen_in h vs) (hd_st x', ts', ws').
  Proof.
    intros Hs. inversion Hs as [D sd meta gs i g v D' meta' g' Hi Ho|D sd meta gs k y C ts1 ws1 v s' ts' ws' dvs gs' Hy Hd HC He Hev]; subst; cbn [cd_db cd_side] in *; intros h x ts ws Hx Hsd.
    - destruct (own_grows _ _ _ _ _ _ _ _ _ Ho) as (Hg & _). exists x, ts, ws. split; [by eapply grows_lookup|]. split; [by apply sd_lookup|]. split; [done|]. split; [intros _; by eapply own_seen|].
      intros C _. rewrite (own_seen _ _ _ _ _ _ _ _ _ _ Ho). constructor.
    - rewrite (on_seen _ _ _ _ _ _ _ Hev), (use_handles _ _ _ _ _ Hy). destruct (decide (k = h)) as [->|Hne].
      + rewrite decide_True by done. rewrite Hy in Hx. injection Hx as <-. rewrite Hd in Hsd. injection Hsd as <- <-.
        eexists _, ts', ws'. split; [done|]. split; [apply list_lookup_insert; by eapply lookup_lt_Some|]. split; [done|]. split; [intros HN; congruence|].
        intros C1 HC1. cbn [hd_st]. rewrite HC in HC1. injection HC1 as <-. by apply estep_erun.
      + rewrite decide_False by done. rewrite list_lookup_insert_ne by done. exists x, ts, ws. split; [done|]. split; [done|]. split; [done|]. split; [done|].
        intros C1 _. constructor.
  Qed.
  Lemma proj_run m vs m' : cd_run m vs m' -> forall h x ts ws,
    db_handles (cd_db m) !! h = Some x -> cd_side m !! h = Some (ts, ws) ->
    exists x' ts' ws', db_handles (cd_db m') !! h = Some x' /\ cd_side m' !! h = Some (ts', ws') /\ hd_cfg x' = hd_cfg x /\
      (params (hd_cfg x) = None -> seen_in h vs = []) /\
      forall C, params (hd_cfg x) = Some C -> erun C (hd_st x, ts, ws) (seen_in h vs) (hd_st x', ts', ws').
  Proof.
    induction 1 as [m|m v1 m1 v2 m2 _ IH Hs]; intros h x ts ws Hx Hd.
    - exists x, ts, ws. split; [done|]. split; [done|]. split; [done|]. split; [done|]. intros C _. constructor.
    - destruct (IH _ _ _ _ Hx Hd) as (x1 & ts1 & ws1 & Hx1 & Hd1 & E1 & N1 & R1).
      destruct (proj_step _ _ _ Hs _ _ _ _ Hx1 Hd1) as (x2 & ts2 & ws2 & Hx2 & Hd2 & E2 & N2 & R2).
      exists x2, ts2, ws2. split; [done|]. split; [done|]. split; [congruence|]. split; [intros HN; rewrite seen_in_app, N1, N2 by congruence; done|]. intros C HC. rewrite seen_in_app.
      eapply erun_app; [by apply R1|]. apply R2. congruence.
  Qed.

  (** All of them, also those created on the way. *)
  Lemma proj_start D n vs m : cd_run (cd_start D n) vs m ->
    length (cd_gs m) = n /\ length (cd_side m) = length (db_handles (cd_db m)) /\ (length (db_handles D) <= length (db_handles (cd_db m)))%nat /\
    (forall h, (length (db_handles (cd_db m)) <= h)%nat -> seen_in h vs = []) /\
    forall h x, db_handles (cd_db m) !! h = Some x -> exists x0 ts ws,
      (db_handles D !! h = Some x0 \/ (length (db_handles D) <= h)%nat /\ hd_st x0 = empty_st) /\ hd_cfg x0 = hd_cfg x /\
      cd_side m !! h = Some (ts, ws) /\
      forall C, params (hd_cfg x) = Some C -> erun C (hd_st x0, replicate n TIdle, []) (seen_in h vs) (hd_st x, ts, ws).
  Proof.
    intros Hr. remember (cd_start D n) as m0 eqn:E0. induction Hr as [m|m v1 m1 v2 m2 Hr IH Hs]; subst m.
    - cbn [cd_start cd_db cd_gs cd_side]. rewrite !replicate_length. split; [done|]. split; [done|]. split; [done|]. split; [done|].
      intros h x Hx. exists x, (replicate n TIdle), []. split; [by left|]. split; [done|]. split.
      + apply lookup_replicate. split; [done|by eapply lookup_lt_Some].
      + intros C _. constructor.
    - destruct (IH eq_refl) as (Hn & Hl & Hle & Hno & Hall). clear IH.
      inversion Hs as [D1 sd meta gs i g v D' meta' g' Hi Ho|D1 sd meta gs k y C ts1 ws1 v s' ts' ws' dvs gs' Hy Hd HC He Hev]; subst; cbn [cd_db cd_side cd_gs] in *.
      + pose proof (own_grows _ _ _ _ _ _ _ _ _ Ho) as (Hg & _).
        assert (length (db_handles D1) <= length (db_handles D'))%nat as Hle1 by (destruct Hg as [E|c E]; rewrite E; rewrite ?app_length; lia).
        split; [by rewrite insert_length|]. split; [rewrite app_length, replicate_length; lia|]. split; [lia|].
        split; [intros h Hh; rewrite seen_in_app, (own_seen _ _ _ _ _ _ _ _ _ _ Ho), Hno by lia; done|].
        intros h x Hx. rewrite seen_in_app, (own_seen _ _ _ _ _ _ _ _ _ _ Ho), app_nil_r.
        destruct (decide (h < length (db_handles D1))) as [Hlt|Hge].
        * assert (db_handles D1 !! h = Some x) as Hx1.
          { destruct Hg as [E|c E]; rewrite E in Hx; [done|]. by rewrite lookup_app_l in Hx. }
          destruct (Hall _ _ Hx1) as (x0 & ts & ws & H1 & H2 & H3 & H4). exists x0, ts, ws. split; [done|]. split; [done|]. split; [by apply sd_lookup|done].
        * pose proof (lookup_lt_Some _ _ _ Hx) as Hlt. destruct Hg as [E|c E]; rewrite E in Hx, Hlt; [lia|]. rewrite app_length in Hlt. cbn in Hlt.
          assert (h = length (db_handles D1)) as -> by lia. rewrite lookup_app_r, Nat.sub_diag in Hx by lia. injection Hx as <-.
          exists (Handle c empty_st), (replicate (length gs) TIdle), []. split; [right; by split|]. split; [done|]. split.
          { rewrite lookup_app_r by lia. rewrite Hl, Nat.sub_diag, E, app_length. cbn [length].
            replace (length (db_handles D1) + 1 - length (db_handles D1)) with 1 by lia. done. }
          intros C _. rewrite Hno by lia. constructor.
      + split; [by rewrite (on_len _ _ _ _ _ _ Hev)|]. cbn [use db_handles]. rewrite !insert_length. split; [done|]. split; [done|].
        split.
        { intros h Hh. rewrite seen_in_app, Hno, (on_seen _ _ _ _ _ _ _ Hev) by done. rewrite decide_False; [done|].
          intros ->. apply lookup_lt_Some in Hy. lia. }
        intros h x Hx. assert (is_Some (db_handles D1 !! h)) as [xo Hxo].
        { apply lookup_lt_is_Some. apply lookup_lt_Some in Hx. by rewrite insert_length in Hx. }
        destruct (Hall _ _ Hxo) as (x0 & ts & ws & H1 & H2 & H3 & H4).
        destruct (proj_step _ _ _ Hs _ _ _ _ Hxo H3) as (x2 & ts2 & ws2 & Hx2 & Hd2 & E2 & N2 & R2). cbn [cd_db cd_side use db_handles] in *.
        rewrite Hx2 in Hx. injection Hx as ->. exists x0, ts2, ws2. split; [done|]. split; [congruence|]. split; [done|].
        intros C1 HC1. rewrite E2 in HC1. rewrite seen_in_app. eapply erun_app; [by apply H4|by apply R2].
  Qed.

  (** ** Nothing is written once the database is closed *)
  Lemma db_disk_same D D' : db_rows D' = db_rows D -> db_next D' = db_next D -> db_files D' = db_files D -> db_colls D' = db_colls D ->
    (forall h, h ∈ vals D -> disk_of <$> (hd_st <$> db_handles D' !! h) = disk_of <$> (hd_st <$> db_handles D !! h)) ->
    db_disk D' = db_disk D.
  Proof.
    intros E1 E2 E3 E4 Hh. unfold db_disk. rewrite E1, E2, E3, E4. f_equal. unfold map_fold, compose.
    assert (Hv : forall p, p ∈ map_to_list (db_colls D) -> disk_of <$> (hd_st <$> db_handles D' !! p.2) = disk_of <$> (hd_st <$> db_handles D !! p.2)).
    { intros p Hp. apply Hh. unfold vals. by apply elem_of_list_fmap_1. }
    revert Hv. induction (map_to_list (db_colls D)) as [|[n h] l IH]; intros Hv; [done|]. cbn [foldr uncurry].
    rewrite IH by (intros p Hp; apply Hv; by right). pose proof (Hv (n, h) ltac:(by left)) as H. cbn [snd] in H.
    assert (E : forall fs : gmap string fnode, match db_handles D' !! h with Some x => <[n := FDir (disk_of (hd_st x))]> fs | None => fs end =
                match db_handles D !! h with Some x => <[n := FDir (disk_of (hd_st x))]> fs | None => fs end).
    { intros fs. destruct (db_handles D' !! h) as [x|], (db_handles D !! h) as [y|]; cbn [fmap option_fmap option_map] in H; try done.
      apply (inj Some) in H. by rewrite H. }
    apply E.
  Qed.
  Definition dstill (m m' : cdb) : Prop :=
    db_closed (cd_db m) = true -> db_closed (cd_db m') = true /\ vals (cd_db m') = vals (cd_db m) /\ db_disk (cd_db m') = db_disk (cd_db m).
  Lemma dstill_step m vs m' : cd_step m vs m' -> jinv m -> dstill m m'.
  Proof.
    intros Hs HJ Hc. inversion Hs as [D sd meta gs i g v D' meta' g' Hi Ho|D sd meta gs k y C ts1 ws1 v s' ts' ws' dvs gs' Hy Hd HC He Hev]; subst; cbn [cd_db] in *.
    - destruct (own_grows _ _ _ _ _ _ _ _ _ Ho) as (_ & H & _). by destruct (H Hc) as [_ ->].
    - destruct (jinv_on _ _ _ _ _ _ _ _ _ _ _ _ _ _ _ HJ Hy Hd He Hev) as [_ Hst]. split; [done|]. split; [done|].
      apply db_disk_same; try done. intros h Hin. rewrite (use_handles _ _ _ _ _ Hy). destruct (decide (h = k)) as [->|]; [|done]. rewrite Hy. cbn. f_equal.
      apply Hst. pose proof (j_closed _ HJ Hc _ Hin) as (z & Hz & Hcz). cbn [cd_db] in Hz. rewrite Hy in Hz. by injection Hz as <-.
  Qed.
  Lemma dstill_run m vs m' : cd_run m vs m' -> jinv m -> dstill m m'.
  Proof.
    induction 1 as [m|m v1 m1 v2 m2 Hr IH Hs]; intros HJ; [by intros Hc|]. intros Hc. destruct (IH HJ Hc) as (H1 & H2 & H3).
    assert (jinv m1) as HJ1 by (by eapply jinv_run). destruct (dstill_step _ _ _ Hs HJ1 H1) as (H4 & H5 & H6). split; [done|]. split; congruence.
  Qed.
  (** Close returns. *)
  Lemma close_returns m i m' : cd_step m [DvRet i DClose (QUnit (Val tt))] m' -> jinv m -> jinv m' /\ db_closed (cd_db m') = true.
  Proof.
    intros Hs HJ. split; [by eapply jinv_step|].
    inversion Hs as [D sd meta gs j g v D' meta' g' Hi Ho|D sd meta gs k y C ts1 ws1 v s' ts' ws' dvs gs' Hy Hd HC He Hev]; subst; [|by inversion Hev].
    inversion Ho; subst. exact (j_gs _ HJ _ _ Hi).
  Qed.

  (** ** A call of a closed database *)
  Definition dlate (open : list nat) (c : dcall) (g : gor) : Prop :=
    match g with
    | GCall c' | GLock c' => c' = c
    | GLoop todo => c = DClose /\ forall h, h ∈ todo -> h ∈ open
    | GShare c' => c' = c /\ match c with DGet _ | DRest _ => True | _ => False end
    | GEnd c' q | GRet c' q => c' = c /\ db_refused open c q
    | GFound c' (inl q) => c' = c /\ db_refused open c q
    | GFound c' (inr _) => False
    | GConf c' h => c' = c /\ c = DConfig h
    | _ => False
    end.
  Lemma dlate_step m vs m' j c : cd_step m vs m' -> jinv m -> db_closed (cd_db m) = true ->
    (exists g, cd_gs m !! j = Some g /\ dlate (vals (cd_db m)) c g) ->
    (no_dret j vs /\ exists g, cd_gs m' !! j = Some g /\ dlate (vals (cd_db m')) c g) \/
    (exists q, vs = [DvRet j c q] /\ db_refused (vals (cd_db m)) c q).
  Proof.
    intros Hs HJ Hc (g & Hg & HP). destruct (dstill_step _ _ _ Hs HJ Hc) as (_ & Hv & _). rewrite Hv.
    assert (Hnil : no_dret j []) by (intros c1 q1 Hin; by apply elem_of_nil in Hin).
    inversion Hs as [D sd meta gs i g1 v D' meta' g' Hi Ho|D sd meta gs k y C ts1 ws1 v s' ts' ws' dvs gs' Hy Hd HC He Hev]; subst; cbn [cd_db cd_gs] in *.
    - destruct (decide (i = j)) as [->|Hne].
      + rewrite Hg in Hi. injection Hi as <-. rewrite list_lookup_insert by (by eapply lookup_lt_Some).
        inversion Ho as [|c1 ? Hf|c1 D1 r Hcr|n D1 r Hcr|todo Ht|h x todo Hl Hcl| |c1 q|c1 Hm Hf|n|n h Hh|n e Hh|c1 q|c1 h|h|h x Hl|n h x a Hl Ha|c1 q]; subst; cbn [dlate] in HP; try done.
        * left. split; [done|]. by eexists.
        * subst c. left. split; [done|]. eexists. split; [done|]. split; [done|]. destruct (do_create_closed _ _ _ _ _ Hcr Hc) as [_ ->]. done.
        * subst c. left. split; [done|]. eexists. split; [done|]. split; [done|]. destruct (do_delete_closed _ _ _ _ _ Hcr Hc) as [_ ->]. done.
        * left. split; [done|]. eexists. split; [done|]. split; [done|]. intros h Hin. unfold vals. by rewrite <- Ht.
        * destruct HP as [-> HP]. left. split; [done|]. eexists. split; [done|]. split; [done|]. intros h' Hin. apply HP. by right.
        * destruct HP as [-> HP]. left. split; [done|]. eexists. by split.
        * left. split; [done|]. eexists. split; [done|]. done.
        * left. split; [done|]. eexists. split; [done|]. cbn. subst c. by destruct c1.
        * destruct HP as [<- _]. left. split; [done|]. eexists. split; [done|]. split; [done|]. cbn. unfold get_collection. by rewrite Hc.
        * unfold get_collection in Hh. by rewrite Hc in Hh.
        * unfold get_collection in Hh. rewrite Hc in Hh. injection Hh as <-. destruct HP as [<- _]. left. split; [done|]. eexists. split; [done|]. done.
        * left. split; [done|]. eexists. split; [done|]. done.
        * subst c. left. split; [done|]. eexists. split; [done|]. done.
        * destruct HP as [<- _]. left. split; [done|]. eexists. split; [done|]. split; [done|]. cbn. intros Hin.
          destruct (j_closed _ HJ Hc _ Hin) as (z & Hz & Hcz). cbn [cd_db] in Hz. rewrite Hl in Hz. injection Hz as <-. unfold get_config. by rewrite Hcz.
        * by destruct HP as [<- [=]].
        * destruct HP as [<- HP]. right. by eexists.
      + left. rewrite list_lookup_insert_ne by done. split; [|by exists g].
        inversion Ho; subst; try done; intros c1 q1 Hin; apply elem_of_list_singleton in Hin; congruence.
    - left. assert (no_dret j vs) as Hno. { inversion Hev; subst; try done; intros c1 q1 Hin; apply elem_of_list_singleton in Hin; congruence. }
      split; [done|].
      inversion Hev as [|? k1 c1 Hk|? k1 r Hk|? k1 todo Hk Hcl|? k1 todo Hk|? k1 todo e Hk]; subst; [by exists g|..];
        (destruct (decide (k1 = j)) as [->|Hne]; [|rewrite list_lookup_insert_ne by done; by exists g]);
        rewrite Hg in Hk; injection Hk as ->; try done.
      cbn [dlate] in HP. destruct HP as [_ HP]. destruct (j_closed _ HJ Hc k) as (z & Hz & Hcz); [apply HP; by left|]. cbn [cd_db] in Hz. congruence.
  Qed.
  Lemma dlate_run m vs m' j c : cd_run m vs m' -> jinv m -> db_closed (cd_db m) = true -> no_dret j vs ->
    (exists g, cd_gs m !! j = Some g /\ dlate (vals (cd_db m)) c g) ->
    exists g, cd_gs m' !! j = Some g /\ dlate (vals (cd_db m')) c g.
  Proof.
    induction 1 as [m|m v1 m1 v2 m2 Hr IH Hs]; intros HJ Hc Hno HP; [done|].
    assert (jinv m1) as HJ1 by (by eapply jinv_run). destruct (dstill_run _ _ _ Hr HJ Hc) as (Hc1 & _ & _).
    destruct (dlate_step _ _ _ j c Hs HJ1 Hc1) as [[_ H]|(q & -> & _)]; [|done|].
    - apply IH; [done|done| |done]. intros c1 q1 Hin. apply (Hno c1 q1). set_solver.
    - exfalso. apply (Hno c q). set_solver.
  Qed.
  Lemma dcall_refused m v3 j c v4 c' q m' : jinv m -> db_closed (cd_db m) = true ->
    cd_run m (v3 ++ DvCall j c :: v4 ++ [DvRet j c' q]) m' -> no_dret j v4 -> c' = c /\ db_refused (vals (cd_db m)) c q.
  Proof.
    intros HJ Hc Hr Hno. destruct (cd_run_split _ _ _ _ _ _ Hr eq_refl) as (ma & mb & R1 & S1 & R2).
    assert (jinv ma) as HJa by (by eapply jinv_run). destruct (dstill_run _ _ _ R1 HJ Hc) as (Hca & Hva & _).
    assert (jinv mb) as HJb by (by eapply jinv_step). destruct (dstill_step _ _ _ S1 HJa Hca) as (Hcb & Hvb & _).
    destruct (cd_run_split _ _ _ _ _ _ R2 eq_refl) as (mc & md & R3 & S3 & _).
    assert (jinv mc) as HJc by (by eapply jinv_run). destruct (dstill_run _ _ _ R3 HJb Hcb) as (Hcc & Hvc & _).
    assert (exists g, cd_gs mb !! j = Some g /\ dlate (vals (cd_db mb)) c g) as HP.
    { inversion S1 as [D sd meta gs i g1 v D' meta' g' Hi Ho|D sd meta gs k y C ts1 ws1 v s' ts' ws' dvs gs' Hy Hd HC He Hev]; subst; [|by inversion Hev].
      inversion Ho; subst. cbn [cd_gs]. exists (GCall c). split; [apply list_lookup_insert; by eapply lookup_lt_Some|done]. }
    pose proof (dlate_run _ _ _ _ _ R3 HJb Hcb Hno HP) as HPc.
    destruct (dlate_step _ _ _ _ _ S3 HJc Hcc HPc) as [[H _]|(q1 & E & H)].
    - exfalso. apply (H c' q). by left.
    - injection E as -> ->. split; [done|]. by rewrite <- Hva, <- Hvb, <- Hvc.
  Qed.

  Lemma coll_refused m vs m' h v3 j c v4 r v5 : jinv m -> db_closed (cd_db m) = true -> h ∈ vals (cd_db m) ->
    cd_run m vs m' -> seen_in h vs = v3 ++ VCall j c :: v4 ++ VRet j r :: v5 -> no_return j v4 -> refused c r.
  Proof.
    intros HJ Hc Hin Hr Es Hno. destruct (j_closed _ HJ Hc _ Hin) as (x & Hx & Hcl).
    assert (is_Some (cd_side m !! h)) as [[ts ws] Hd]. { apply lookup_lt_is_Some. rewrite (j_len _ HJ). by eapply lookup_lt_Some. }
    pose proof (j_coll _ HJ _ _ _ _ Hx Hd) as HK. destruct (proj_run _ _ _ Hr _ _ _ _ Hx Hd) as (x' & ts' & ws' & _ & _ & _ & HN & HR).
    destruct (params (hd_cfg x)) as [C|]; [|rewrite HN in Es by done; by destruct v3]. specialize (HR C eq_refl). rewrite Es in HR.
    destruct (erun_split C _ _ _ _ _ _ HR eq_refl) as (x1 & x2 & A1 & A2 & A3). destruct (kinv_run C _ _ _ A1 HK) as [HK1 Hs1].
    destruct (erun_split C _ _ _ _ _ _ A3 eq_refl) as (x3 & x4 & B1 & B2 & _).
    destruct (follow_call C (EarlyClose.late c) (fun _ r => refused c r) j (late_still c)) with (m := x1) (c := c) (v := v4) (r := r) (m' := x4) as (? & _ & H & _); try done.
    - intros gs0 s0 ts0 t0 vs0 s1 t1. apply (late_self C).
    - split; [by apply Hs1|by left].
    - change (VCall j c :: v4 ++ [VRet j r]) with ([VCall j c] ++ v4 ++ [VRet j r]). eapply erun_app; [by apply estep_erun|]. by eapply ERunSnoc.
  Qed.

  (** ** Close fails only if a user closes a collection *)
  Definition shutting (t : client) : Prop := t = TCall CClose \/ exists c, t = TX c (XUnit close).
  Definition shut_ok (t : client) : Prop := (exists c, t = TX c (XUnit (Done (Val tt)))) \/ t = TRet (RUnit (Val tt)).
  Lemma close_not_check : close <> check_open.
  Proof.
    intros E. assert (exec close (set_closed true empty_st) = exec check_open (set_closed true empty_st)) as H by (by rewrite E). discriminate H.
  Qed.
  Lemma xstart_close C c : xstart C c = Some (XUnit close) -> c = CClose.
  Proof. destruct c; cbn [xstart]; try done. intros H. assert (E : update o = close) by congruence. by destruct (close_not_check (eq_sym E)). Qed.

  Lemma slot_self C gs s ts i t vs s' t' : self_step C gs s ts i t vs s' t' -> kok t -> shutting t' ->
    vs = [VCall i CClose] \/ (vs = [] /\ shutting t).
  Proof.
    intros Hs Hk [->|[c ->]]; inversion Hs as [? ? ? ? ? ? ? Hcl| | | ]; subst; inversion Hcl as [|? ? ? c1 b Hx|? ? ? c1 b s1 b' Hx| | | | | | | | | | | | | | ]; subst; try done.
    - by left.
    - right. split; [done|]. apply xstart_close in Hx as ->. by left.
    - inversion Hx as [|f ? ? p' Hp| | | | | | | ]; subst. cbn [kok] in Hk. destruct Hk as [E|[E|[r E]]]; [| |discriminate E]; injection E as ->; cbn in Hp.
      + destruct (closed s); discriminate Hp.
      + discriminate Hp.
  Qed.
  Lemma sc_false s s' : sc s s' -> closed s = false -> closed s' = true -> False.
  Proof. unfold sc. congruence. Qed.
  Lemma estep_closes C s ts ws vs s' ts' ws' : estep C (s, ts, ws) vs (s', ts', ws') -> kinv (s, ts, ws) -> closed s = false -> closed s' = true ->
    exists j c, ts !! j = Some (TX c (XUnit close)) /\ ts' !! j = Some (TX c (XUnit (Done (Val tt)))).
  Proof.
    intros He HK Hc Hc'.
    inversion He as [? ? ? ? ? ? Hcs|? ? ? k ids' Hk Hf' Hg|? ? ? k o' n Hk Hf' Hg|? ? ? k c two io us e Hk He'|? ? ? j q us s1 us' Hj' Hm']; subst; try congruence; try (cbn in Hc'; congruence).
    - inversion Hcs as [? ? i t ? ? t' Hi Hcl]; subst. pose proof (Forall_lookup_1 _ _ _ _ (k_ok _ HK) Hi) as Hk. cbn [fst snd] in Hk.
      inversion Hcl as [|? ? ? c b Hs1 Hf|? ? ? c b s1 b' Hx|? ? ? c b r Hx|? ? ? c b Hs1 Hf|? ? ? c b s1 b' Hy| | | | | | | | | | ? ? ? io id Hf| ]; subst; try congruence.
      + inversion Hx as [f ? ? p' Hp|f ? ? p' Hp|f ? ? p' Hp|two io ol ? r Hr Hne|io ol ? os Hr|io ol ? os Hr|two io us ? ? us' Hm|two io rs ? s1 r Hg Hw|two io rs ? e Hg]; subst; cbn [kok steps] in Hk; try (cbn in Hc'; congruence).
        * exfalso. specialize (Hk s). rewrite Hp in Hk. destruct Hk as [Hk _]. by eapply sc_false.
        * destruct Hk as [E|[E|[r E]]]; [| |discriminate E]; injection E as ->; cbn in Hp; [|injection Hp as <- <-; congruence].
          rewrite Hc in Hp. injection Hp as <- <-. exists i, c. split; [done|]. apply list_lookup_insert. by eapply lookup_lt_Some.
        * exfalso. specialize (Hk s). rewrite Hp in Hk. destruct Hk as [Hk _]. by eapply sc_false.
        * exfalso. destruct (steps_mstep wk _ _ Hm Hk) as [[H1 _] _]. cbn [fst snd] in H1. congruence.
        * exfalso. pose proof (f_equal (fun x => closed x.1) Hw) as E. cbn [fst] in E.
          assert (closed (wal_flush io s).1 = closed s) as E2. { unfold wal_flush. repeat case_match; done. }
          rewrite E2 in E. destruct two; cbn in Hc'; congruence.
        * destruct two; cbn in Hc'; congruence.
      + exfalso. inversion Hy as [f ? ? p' Hp|f ? ? p' Hp]; subst; cbn [kok steps] in *; specialize (Hk s); rewrite Hp in Hk; destruct Hk as [[Hk _] _]; congruence.
    - exfalso. pose proof (Forall_lookup_1 _ _ _ _ (k_groups _ HK) Hj') as Hw. cbn [snd] in Hw. destruct (steps_mstep wk _ _ Hm' Hw) as [[H1 _] _]. cbn in *. congruence.
  Qed.

  Definition nok (D : db) (sd : list (list client * list group)) (i : nat) (g : gor) : Prop :=
    match g with
    | GShut h _ => exists x ts ws t, db_handles D !! h = Some x /\ sd !! h = Some (ts, ws) /\ ts !! i = Some t /\
        (shutting t /\ closed (hd_st x) = false \/ shut_ok t)
    | GEnd DClose q | GRet DClose q => q = QUnit (Val tt)
    | _ => True
    end.
  Record ninv (m : cdb) : Prop := NInv {
    n_slot : forall h x ts ws j t, db_handles (cd_db m) !! h = Some x -> cd_side m !! h = Some (ts, ws) -> ts !! j = Some t -> shutting t ->
      exists todo, cd_gs m !! j = Some (GShut h todo);
    n_gs : forall i g, cd_gs m !! i = Some g -> nok (cd_db m) (cd_side m) i g
  }.
  Lemma idle_not_shutting n j t : replicate n TIdle !! j = Some t -> ~ shutting t.
  Proof. intros H. apply lookup_replicate in H as [-> _]. by intros [|[]]. Qed.
  Lemma ninv_start D n : ninv (cd_start D n).
  Proof.
    split; cbn [cd_start cd_db cd_side cd_gs].
    - intros h x ts ws j t _ Hd Hj Ht. apply lookup_replicate in Hd as [E _]. unfold unused in E. injection E as -> ->. by destruct (idle_not_shutting _ _ _ Hj Ht).
    - intros i g Hg. apply lookup_replicate in Hg as [-> _]. done.
  Qed.
  Lemma shut_ok_self C gs s ts i t vs s' t' : self_step C gs s ts i t vs s' t' -> shut_ok t -> (vs = [] /\ shut_ok t') \/ vs = [VRet i (RUnit (Val tt))].
  Proof.
    intros Hs [[c ->]| ->]; inversion Hs as [? ? ? ? ? ? ? Hcl| | | ]; subst; inversion Hcl as [|? ? ? c1 b Hx|? ? ? c1 b s1 b' Hx|? ? ? c1 b r Hx| | | | | | | | | | | | | ]; subst; try done.
    - by inversion Hx.
    - injection Hx as <-. left. split; [done|]. by right.
    - by right.
  Qed.
  Lemma shutting_self C gs s ts i t vs s' t' : self_step C gs s ts i t vs s' t' -> closed s = false -> shutting t ->
    vs = [] /\ (shutting t' /\ closed s' = false \/ shut_ok t').
  Proof.
    intros Hs Hc [->|[c ->]]; inversion Hs as [? ? ? ? ? ? ? Hcl| | | ]; subst; inversion Hcl as [|? ? ? c1 b Hx|? ? ? c1 b s1 b' Hx|? ? ? c1 b r Hx|? ? ? c1 b Hy| | | | | | | | | | | | ]; subst; try done.
    - cbn [xstart] in Hx. injection Hx as <-. split; [done|]. left. split; [right; by eexists|done].
    - inversion Hx as [|f ? ? p' Hp| | | | | | | ]; subst. cbn in Hp. rewrite Hc in Hp. injection Hp as <- <-. split; [done|]. right. left. by eexists.
  Qed.
  Lemma ninv_step m vs m' : cd_step m vs m' -> jinv m -> no_user_close vs -> ninv m -> ninv m'.
  Proof.
    intros Hs HJ Hno [N1 N2]. inversion Hs as [D sd meta gs i g v D' meta' g' Hi Ho|D sd meta gs k y C ts1 ws1 v s' ts' ws' dvs gs' Hy Hd HC He Hev]; subst; cbn [cd_db cd_side cd_gs] in *.
    - pose proof (own_grows _ _ _ _ _ _ _ _ _ Ho) as (Hg & _). pose proof (j_len _ HJ) as Hl. cbn [cd_db cd_side] in Hl.
      split; cbn [cd_db cd_side cd_gs].
      + intros h x ts ws j t Hx Hd Hj Ht. destruct (decide (h < length sd)) as [Hlt|Hge].
        * rewrite lookup_app_l in Hd by done. assert (db_handles D !! h = Some x) as Hx0.
          { destruct Hg as [E|c E]; rewrite E in Hx; [done|]. rewrite lookup_app_l in Hx; [done|lia]. }
          destruct (N1 _ _ _ _ _ _ Hx0 Hd Hj Ht) as [todo Hto]. exists todo. rewrite list_lookup_insert_ne; [done|]. intros ->.
          rewrite Hi in Hto. injection Hto as ->. by inversion Ho.
        * rewrite lookup_app_r in Hd by lia. apply lookup_replicate in Hd as [E _]. unfold unused in E. injection E as -> ->.
          by destruct (idle_not_shutting _ _ _ Hj Ht).
      + intros j u Hj. destruct (decide (j = i)) as [->|Hne].
        * rewrite list_lookup_insert in Hj by (by eapply lookup_lt_Some). injection Hj as <-. pose proof (N2 _ _ Hi) as Hok. pose proof (j_gs _ HJ _ _ Hi) as Hjk. cbn [cd_db cd_side] in Hjk.
          inversion Ho as [|c1 ? Hf|c1 D1 r Hcr|n D1 r Hcr|todo Ht|h x todo Hl1 Hcl| |c1 q|c1 Hm Hf|n|n h Hh|n e Hh|c1 q|c1 h|h|h x Hl1|n h x a Hl1 Ha|c1 q]; subst; cbn [nok gok] in *; try done.
          by destruct c1.
        * rewrite list_lookup_insert_ne in Hj by done. pose proof (N2 _ _ Hj) as Hok. destruct u as [| | | | |h todo|[] ?| | | |[] ?]; cbn [nok] in *; try done.
          destruct Hok as (x & ts & ws & t & E1 & E2 & E3 & E4). exists x, ts, ws, t. split; [by eapply grows_lookup|]. split; [by apply sd_lookup|done].
    - pose proof (j_coll _ HJ _ _ _ _ Hy Hd) as HK.
      assert (Hslot : forall j u, gs !! j = Some u -> (forall h todo, u = GShut h todo -> gs' !! j = Some (GShut h todo) \/ h = k /\ exists r, v = [VRet j r])).
      { intros j u Hj h todo ->. inversion Hev as [|? k1 c1 Hk|? k1 r Hk|? k1 todo1 Hk Hcl|? k1 todo1 Hk|? k1 todo1 e Hk]; subst; [by left|..];
          (destruct (decide (k1 = j)) as [->|Hne]; [|left; by rewrite list_lookup_insert_ne]); rewrite Hj in Hk; try done; injection Hk as -> ->; right; split; [done|by eexists|done|by eexists]. }
      split; cbn [cd_db cd_side cd_gs].
      + intros h x ts ws j t. rewrite (use_handles _ _ _ _ _ Hy). destruct (decide (h = k)) as [->|Hne].
        * intros _. rewrite list_lookup_insert by (by eapply lookup_lt_Some). intros [= <- <-] Hj Ht.
          assert (is_Some (ts1 !! j)) as [t0 Ht0].
          { apply lookup_lt_is_Some. apply lookup_lt_Some in Hj. inversion He as [? ? ? ? ? ? Hcs| | | | ]; subst; rewrite ?insert_length in Hj; try done.
            inversion Hcs; subst. by rewrite insert_length in Hj. }
          pose proof (Forall_lookup_1 _ _ _ _ (k_ok _ HK) Ht0) as Hk0. cbn [fst snd] in Hk0.
          destruct (estep_self _ _ _ _ _ _ _ _ _ _ He Ht0) as [(t' & Ht' & Hse)|[Ht' Hnr]].
          -- rewrite Ht' in Hj. injection Hj as ->. destruct (slot_self _ _ _ _ _ _ _ _ _ Hse Hk0 Ht) as [->|[-> Hs0]].
             ++ inversion Hev as [|? k1 c1 Hk| |? k1 todo1 Hk Hcl| | ]; subst.
                ** exfalso. apply (Hno k j). by left.
                ** exists todo1. apply list_lookup_insert. by eapply lookup_lt_Some.
             ++ destruct (N1 _ _ _ _ _ _ Hy Hd Ht0 Hs0) as [todo Hto]. exists todo. destruct (Hslot _ _ Hto _ _ eq_refl) as [H|[_ [r [=]]]]; done.
          -- rewrite Ht' in Hj. injection Hj as ->. destruct (N1 _ _ _ _ _ _ Hy Hd Ht0 Ht) as [todo Hto]. exists todo.
             destruct (Hslot _ _ Hto _ _ eq_refl) as [H|[_ [r ->]]]; [done|]. exfalso. apply (Hnr r). by left.
        * rewrite list_lookup_insert_ne by done. intros Hx Hd0 Hj Ht. destruct (N1 _ _ _ _ _ _ Hx Hd0 Hj Ht) as [todo Hto]. exists todo.
          destruct (Hslot _ _ Hto _ _ eq_refl) as [H|[-> _]]; done.
      + (* the goroutine in Close *)
        assert (Hshut : forall j todo, gs !! j = Some (GShut k todo) ->
          (exists t, ts' !! j = Some t /\ (shutting t /\ closed s' = false \/ shut_ok t) /\ no_return j v) \/ v = [VRet j (RUnit (Val tt))]).
        { intros j todo Hj. pose proof (N2 _ _ Hj) as (x & ts & ws & t & E1 & E2 & E3 & E4). rewrite Hy in E1. injection E1 as <-. rewrite Hd in E2. injection E2 as <- <-.
          assert (Hnil : no_return j []) by (intros r Hin; by apply elem_of_nil in Hin).
          destruct (estep_self _ _ _ _ _ _ _ _ _ _ He E3) as [(t' & Ht' & Hse)|[Ht' Hnr]].
          - destruct E4 as [[Ht Hc]|Ht].
            + destruct (shutting_self _ _ _ _ _ _ _ _ _ Hse Hc Ht) as [-> H]. left. by exists t'.
            + destruct (shut_ok_self _ _ _ _ _ _ _ _ _ Hse Ht) as [[-> H]| ->]; [|by right]. left. exists t'. split; [done|]. split; [by right|done].
          - left. exists t. split; [done|]. split; [|done]. destruct E4 as [[Ht Hc]|Ht]; [|by right]. left. split; [done|].
            destruct (closed s') eqn:Hc'; [|done]. exfalso. destruct (estep_closes _ _ _ _ _ _ _ _ He HK Hc Hc') as (j' & c & Hj1 & Hj2).
            destruct (N1 _ _ _ _ _ _ Hy Hd Hj1 ltac:(right; by eexists)) as [todo' Hto']. assert (j' = j) as ->.
            { eapply (j_excl _ HJ); [exact Hto'|exact Hj|done|done]. }
            rewrite Hj1 in E3. injection E3 as <-. rewrite Ht' in Hj2. discriminate Hj2. }
        assert (Hkeep : forall j u, gs !! j = Some u -> no_return j v -> nok D sd j u -> nok (use k y s' D) (<[k := (ts', ws')]> sd) j u).
        { intros j u Hj Hnr Hok. destruct u as [| | | | |h todo|[] ?| | | |[] ?]; cbn [nok] in *; try done.
          destruct (decide (h = k)) as [->|Hne].
          - destruct (Hshut _ _ Hj) as [(t & Ht & H & _)| ->]; [|exfalso; by apply (Hnr (RUnit (Val tt))); left].
            eexists _, ts', ws', t. rewrite (use_handles _ _ _ _ _ Hy), decide_True by done. split; [done|]. split; [apply list_lookup_insert; by eapply lookup_lt_Some|done].
          - destruct Hok as (x & ts & ws & t & E1 & E2 & E3 & E4). exists x, ts, ws, t. rewrite (use_handles _ _ _ _ _ Hy), decide_False by done. rewrite list_lookup_insert_ne by done. done. }
        intros j u Hj.
        inversion Hev as [|? k1 c1 Hk|? k1 r Hk|? k1 todo1 Hk Hcl|? k1 todo1 Hk|? k1 todo1 e Hk]; subst.
        { apply Hkeep; [done| |by apply N2]. intros r Hin. by apply elem_of_nil in Hin. }
        all: destruct (decide (k1 = j)) as [->|Hne];
          [rewrite list_lookup_insert in Hj by (by eapply lookup_lt_Some); injection Hj as <-
          |rewrite list_lookup_insert_ne in Hj by done; apply Hkeep; [done| |by apply N2]; intros r0 Hin; apply elem_of_list_singleton in Hin; congruence].
        * done.
        * done.
        * cbn [nok]. eexists _, ts', ws', (TCall CClose). rewrite (use_handles _ _ _ _ _ Hy), decide_True by done. split; [done|].
          split; [apply list_lookup_insert; by eapply lookup_lt_Some|].
          inversion He as [s1 ts2 gs1 w s2 ts3 Hcs| | | | ]; subst. inversion Hcs as [? ? k2 u1 ? ? u1' Hk1 Hcl1]; subst.
          inversion Hcl1; subst. split; [apply list_lookup_insert; by eapply lookup_lt_Some|]. left. split; [by left|done].
        * done.
        * exfalso. destruct (Hshut _ _ Hk) as [(t & _ & _ & Hnr)|E]; [apply (Hnr (RUnit (Err e))); by left|discriminate E].
  Qed.
  Lemma ninv_run m vs m' : cd_run m vs m' -> jinv m -> no_user_close vs -> ninv m -> ninv m'.
  Proof.
    induction 1 as [m|m v1 m1 v2 m2 Hr IH Hs]; intros HJ Hno HN; [done|].
    assert (jinv m1) as HJ1 by (by eapply jinv_run). eapply ninv_step; [exact Hs|done| |apply IH; try done]; intros h i Hin; apply (Hno h i); set_solver.
  Qed.
End trace.
