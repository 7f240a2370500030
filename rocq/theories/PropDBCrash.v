(** Crashes of a whole database: inside CreateCollection (C94) and
    DeleteCollection (C95), the independence of the collections (C96), the
    acknowledged objects (C97), and deletions that cannot remove the files (C98). *)
From Coq Require Import Ascii.
From stdpp Require Import relations.
From Verif Require Import GoBase FloatModel ProgModel StateModel WalModel HnswModel StoreModel CollModel CallModel DBModel.
From Verif Require Import ProofBase WpProofs CallProofs HistProofs HistRun PropStore PropColl DBProofs PropDB DBCrashModel DBCrashProofs.
Open Scope nat_scope.

(** ** What Open makes of a data directory *)
Lemma open_names D1 D' : NoDup (names (db_rows D1)) -> db_open (db_disk D1) = Val D' -> forall n h,
  names_to D' n h <-> exists r, r ∈ db_rows D1 /\ cf_name (row_cfg r) = n /\ new_collection (row_config r) (dd_files (db_disk D1) !! n) = Val h.
Proof.
  intros Hnd Ho n h. unfold db_open in Ho. change (dd_rows (db_disk D1)) with (db_rows D1) in Ho.
  destruct (open_rows_val _ _ _ Hnd Ho) as (_ & H2 & H3 & _ & _ & H6). cbn [db_colls db_files db_closed] in *. specialize (H6 eq_refl).
  unfold names_to, get_collection. rewrite H6. split.
  - intros (i & Hi & Hh). destruct (db_colls D' !! n) as [j|] eqn:Ej; [|done]. apply Val_inj in Hi as ->.
    destruct (decide (n ∈ names (db_rows D1))) as [Hin|Hin].
    + apply elem_of_list_fmap in Hin as (r & -> & Hr). destruct (H2 r Hr) as (i2 & s & E1 & E2 & E3). rewrite Ej in E1. injection E1 as ->.
      rewrite Hh in E2. injection E2 as ->. by exists r.
    + destruct (H3 n Hin) as [E _]. rewrite Ej in E. by rewrite lookup_empty in E.
  - intros (r & Hr & <- & Hc). destruct (H2 r Hr) as (i & s & E1 & E2 & E3). rewrite E3 in Hc. apply Val_inj in Hc as <-. exists i. by rewrite E1.
Qed.
Lemma open_iff D1 : NoDup (names (db_rows D1)) ->
  (exists D', db_open (db_disk D1) = Val D') <-> forall r, r ∈ db_rows D1 -> exists h, new_collection (row_config r) (dd_files (db_disk D1) !! cf_name (row_cfg r)) = Val h.
Proof.
  intros Hnd. split.
  - intros [D' Ho] r Hr. unfold db_open in Ho. destruct (open_rows_val _ _ _ Hnd Ho) as (_ & H2 & _). destruct (H2 r Hr) as (i & s & _ & _ & E). by eexists.
  - intros H. by apply open_rows_ok.
Qed.

Section crash.
  Context (env_embed : string -> jval -> embedder) (J : json) (maxv : N) (workers fuel : nat).
  Notation params c := (cparams_of env_embed J maxv workers fuel c).
  Notation khist := (khist env_embed J maxv workers fuel).
  Notation kstep := (kstep env_embed J maxv workers fuel).
  Notation cut_handles := (cut_handles env_embed J maxv workers fuel).
  Notation KI := (KI env_embed J maxv workers fuel).

  (** The database as it is when the process dies, but for the call on it. *)
  Definition died (D : db) (hs : list handle) : db := DB (db_rows D) (db_next D) (db_files D) (db_colls D) hs (db_closed D).

  Lemma died_dom D P S cuts hs : KI D P S -> cut_handles cuts (db_handles D) hs ->
    forall n i, db_colls (died D hs) !! n = Some i -> n ∈ names (db_rows (died D hs)) /\ i < length (db_handles (died D hs)).
  Proof using.
    intros HK Hcut n i Hi. cbn [died db_colls db_rows db_handles] in *. apply (ki_colls _ _ _ _ _ _ _ _ HK) in Hi as (e & He & <- & <-).
    rewrite (KI_rows_names _ _ _ _ _ _ _ _ HK). split; [by apply elem_of_list_fmap_1|].
    destruct (ki_hd _ _ _ _ _ _ _ _ HK e He) as (h & Hh & _). apply lookup_lt_Some in Hh. destruct Hcut as [-> _]. done.
  Qed.

  (** ** C94 A crash during CreateCollection leaves all or nothing *)
  Theorem C94_create_crash_partial : forall l D cuts hs c b D1,
    khist fresh_db l D -> names_ok l -> plain c -> cf_name c ∉ dirty l ->
    cut_handles cuts (db_handles D) hs -> create_cut c (died D hs) b D1 ->
    ((exists D', db_open (db_disk D1) = Val D') <-> (exists D0, db_open (db_disk (died D hs)) = Val D0)) /\
    forall D0 D', db_open (db_disk (died D hs)) = Val D0 -> db_open (db_disk D1) = Val D' ->
      (forall n h, n <> cf_name c -> (names_to D' n h <-> names_to D0 n h)) /\
      (b = false -> forall n h, names_to D' n h <-> names_to D0 n h) /\
      (b = true -> documented c /\ (forall h, ~ names_to D0 (cf_name c) h) /\
        names_to D' (cf_name c) (Handle (Config (cf_name c) (cf_index c) (cf_embedder c) (cf_data c) (params_stored (cf_params c)) (cf_embcfg c) []) empty_st)).
  Proof using.
    intros l D cuts hs c b D1 Hl Hok Hpl Hdi Hcut Hcc. pose proof (khist_KI _ _ _ _ _ _ _ Hl Hok) as HK.
    set (Dh := died D hs) in *. pose proof (KI_nodup _ _ _ _ _ _ _ _ HK) as Hnd.
    assert (Hnofile : db_files Dh !! cf_name c = None).
    { change (db_files Dh) with (db_files D). destruct (db_files D !! cf_name c) eqn:E; [|done].
      destruct (ki_files _ _ _ _ _ _ _ _ HK (cf_name c)) as [E2|E2]; [by rewrite E| |done]. by destruct (pl_meta _ Hpl). }
    pose proof (create_cut_shape Dh c b D1 Hpl (ki_open _ _ _ _ _ _ _ _ HK) Hnofile (died_dom _ _ _ _ _ HK Hcut) Hcc) as Hsh.
    change (NoDup (names (db_rows Dh))) in Hnd. destruct b.
    2:{ rewrite Hsh. split; [done|]. intros D0 D' H1 H2. rewrite H1 in H2. apply Val_inj in H2 as <-. split_and!; [done..|]. discriminate. }
    destruct Hsh as (Hv & Hnew & E1 & Hoth & Hemp & Hnf).
    assert (Hnd1 : NoDup (names (db_rows D1))).
    { rewrite E1. unfold names. rewrite fmap_app. apply NoDup_app. split_and!; [done| |apply NoDup_singleton].
      intros x Hx [-> |Hy%elem_of_nil]%elem_of_cons; [|done]. done. }
    assert (Hne : forall r, r ∈ db_rows Dh -> cf_name (row_cfg r) <> cf_name c).
    { intros r Hr E. apply Hnew. rewrite <- E. apply elem_of_list_fmap. by exists r. }
    assert (Hmine : forall x, new_collection (row_config (Row x (stored c))) (dd_files (db_disk D1) !! cf_name c) =
      Val (Handle (Config (cf_name c) (cf_index c) (cf_embedder c) (cf_data c) (params_stored (cf_params c)) (cf_embcfg c) []) empty_st)).
    { intros x. destruct (dd_files (db_disk D1) !! cf_name c) as [[d|]|]; [|done|].
      - cbn in Hemp. subst d. apply new_collection_ok; [apply Hpl|apply reopen_empty].
      - unfold new_collection. cbn [d_cfile empty_disk]. assert (exists z, open_counter (d_cfile empty_disk) = Val z) as [z E] by (by eexists).
        cbn [d_cfile empty_disk] in E. rewrite E. cbn [mbind out_bind row_config row_cfg stored cf_index]. rewrite (pl_index _ Hpl). change (String.eqb "hnsw" "hnsw") with true. cbv iota.
        rewrite reopen_empty. cbn [mbind out_bind]. unfold row_config, stored. cbn [row_cfg cf_index cf_name cf_embedder cf_data cf_params cf_embcfg]. by rewrite (pl_index _ Hpl). }
    split.
    - rewrite (open_iff D1 Hnd1), (open_iff Dh Hnd). split.
      + intros H r Hr. destruct (H r) as [h Hh]; [rewrite E1; apply elem_of_app; by left|]. exists h. rewrite <- Hh, Hoth by (by apply Hne). done.
      + intros H r. rewrite E1, elem_of_app, elem_of_list_singleton. intros [Hr| ->].
        * rewrite Hoth by (by apply Hne). by apply H.
        * eexists. apply Hmine.
    - intros D0 D' Ho0 Ho1.
      assert (Hother : forall n h, n <> cf_name c -> names_to D' n h <-> names_to D0 n h).
      { intros n h Hn. rewrite (open_names D1 D' Hnd1 Ho1), (open_names Dh D0 Hnd Ho0), Hoth by done. rewrite E1. split.
        - intros (r & [Hr|Hr%elem_of_list_singleton]%elem_of_app & E & Hc); [by exists r|]. subst r. by destruct Hn.
        - intros (r & Hr & E & Hc). exists r. split_and!; [apply elem_of_app; by left|done..]. }
      split; [done|]. split; [discriminate|]. intros _. split; [by apply validate_spec|]. split.
      + intros h. rewrite (open_names Dh D0 Hnd Ho0). intros (r & Hr & E & _). by apply (Hne r).
      + apply (open_names D1 D' Hnd1 Ho1). exists (Row (db_next Dh) (stored c)). split_and!; [rewrite E1; apply elem_of_app; right; by apply elem_of_list_singleton|done|apply Hmine].
  Qed.

  (** ** C95 A crash during DeleteCollection leaves all or nothing *)
  Theorem C95_delete_crash_partial : forall l D cuts hs n b D1,
    khist fresh_db l D -> names_ok l ->
    cut_handles cuts (db_handles D) hs -> delete_cut n (died D hs) b D1 ->
    forall D0, db_open (db_disk (died D hs)) = Val D0 -> exists D', db_open (db_disk D1) = Val D' /\
      (forall m h, m <> n -> (names_to D' m h <-> names_to D0 m h)) /\
      (b = false -> D' = D0) /\
      (b = true -> (exists h, names_to D n h) /\ (forall h, ~ names_to D' n h) /\
        (dd_files (db_disk D1) !! n = None -> forall c, plain c -> documented c -> cf_name c = n -> exists D2 i,
           create_collection c D' = (D2, Val i) /\ names_to D2 n (Handle c empty_st))).
  Proof using.
    intros l D cuts hs n b D1 Hl Hok Hcut Hdc D0 Ho0. pose proof (khist_KI _ _ _ _ _ _ _ Hl Hok) as HK.
    set (Dh := died D hs) in *. pose proof (KI_nodup _ _ _ _ _ _ _ _ HK) as Hnd. change (NoDup (names (db_rows Dh))) in Hnd.
    inversion Hdc as [|rest Hcl Hcn Hex]; subst; [by exists D0|]. set (D1 := DB _ _ _ _ _ _) in *.
    assert (Hoth : forall m, m <> n -> dd_files (db_disk D1) !! m = dd_files (db_disk Dh) !! m).
    { intros m Hne. rewrite !disk_files. cbn [D1 db_colls db_files db_handles]. rewrite lookup_delete_ne by done.
      assert (match rest with Some d => <[n:=FDir d]> (db_files Dh) | None => delete n (db_files Dh) end !! m = db_files Dh !! m) as ->; [|done].
      destruct rest; [by rewrite lookup_insert_ne|by rewrite lookup_delete_ne]. }
    assert (Hnd1 : NoDup (names (db_rows D1))) by (by apply NoDup_filter_rows).
    assert (Hrw : forall r, r ∈ db_rows D1 <-> r ∈ db_rows Dh /\ cf_name (row_cfg r) <> n) by (intros r; apply elem_filter_rows).
    destruct (proj2 (open_iff D1 Hnd1)) as [D' Ho1].
    { intros r [Hr Hne]%Hrw. rewrite Hoth by done. apply (open_iff Dh Hnd); [by exists D0|done]. }
    exists D'. split; [done|]. split; [|split; [discriminate|]].
    - intros m h Hm. rewrite (open_names D1 D' Hnd1 Ho1), (open_names Dh D0 Hnd Ho0), Hoth by done. split.
      + intros (r & [Hr _]%Hrw & E & Hc). by exists r.
      + intros (r & Hr & E & Hc). exists r. split_and!; [apply Hrw; split; [done|by rewrite E]|done..].
    - intros _. split.
      { destruct Hcn as [i Hi]. change (db_colls Dh) with (db_colls D) in Hi. pose proof Hi as Hi2. apply (ki_colls _ _ _ _ _ _ _ _ HK) in Hi2 as (e & He & _ & <-).
        destruct (ki_hd _ _ _ _ _ _ _ _ HK e He) as (h & Hh & _). exists h, (en_idx e). unfold get_collection. by rewrite (ki_open _ _ _ _ _ _ _ _ HK), Hi. }
      assert (Hgone : forall h, ~ names_to D' n h).
      { intros h. rewrite (open_names D1 D' Hnd1 Ho1). intros (r & [_ Hr]%Hrw & E & _). done. }
      split; [done|]. intros Hf c Hp Hd <-.
      pose proof Ho1 as Ho2. unfold db_open in Ho2. change (dd_rows (db_disk D1)) with (db_rows D1) in Ho2.
      destruct (open_rows_val _ _ _ Hnd1 Ho2) as (G1 & _ & G3 & _ & _ & G6). cbn [db_colls db_files db_closed db_rows] in *.
      assert (Hin : cf_name c ∉ names (db_rows D1)).
      { intros (r & E & [_ Hr]%Hrw)%elem_of_list_fmap. by destruct Hr. }
      destruct (G3 _ Hin) as [E1 E2]. rewrite lookup_empty in E1.
      destruct (create_ok c D' Hp) as [D2 E]; try done.
      + by apply validate_spec.
      + by apply G6.
      + by rewrite G1.
      + by rewrite E2.
      + exists D2, (length (db_handles D')). split; [done|]. by destruct (C45_created_collection_is_empty _ _ _ _ E) as [Hx _].
  Qed.

  (** ** C96 Each collection of a database behaves as if it were alone *)
  Theorem C96_collections_are_independent_partial : forall l D, khist fresh_db l D -> names_ok l ->
    NoDup (en_name <$> entries l) /\
    (forall n, (exists h, names_to D n h) <-> exists e, e ∈ entries l /\ en_name e = n) /\
    (forall e, e ∈ entries l -> exists h, names_to D (en_name e) h /\ get_collection (en_name e) D = Val (en_idx e) /\
       hd_cfg h = cfg_now (en_cfg e) (en_hist e) /\ life env_embed J maxv workers fuel (en_cfg e) (en_hist e) (hd_st h) /\
       (lean (en_cfg e) -> exists C, params (en_cfg e) = Some C /\ hist C empty_st (en_hist e) (hd_st h))).
  Proof using.
    intros l D Hl Hok. pose proof (khist_KI _ _ _ _ _ _ _ Hl Hok) as [H1 H2 H3 H4 H5 H6 H7 H8].
    assert (Hent : forall e, e ∈ entries l -> exists h, names_to D (en_name e) h /\ get_collection (en_name e) D = Val (en_idx e) /\
       hd_cfg h = cfg_now (en_cfg e) (en_hist e) /\ life env_embed J maxv workers fuel (en_cfg e) (en_hist e) (hd_st h) /\
       (lean (en_cfg e) -> exists C, params (en_cfg e) = Some C /\ hist C empty_st (en_hist e) (hd_st h))).
    { intros e He. destruct (H7 e He) as (h & Hh & Hc & Hl0). exists h.
      assert (db_colls D !! en_name e = Some (en_idx e)) as E by (apply H5; by exists e).
      unfold names_to, get_collection. rewrite H1, E. split; [by exists (en_idx e)|]. split; [done|]. split; [done|]. split; [done|]. intros Hlean.
      destruct (H6 e He) as (Hp & Hv & _). destruct (params_now env_embed J maxv workers fuel _ [] Hp Hv) as [C HC]. exists C. split; [exact HC|].
      by apply (life_lean env_embed J maxv workers fuel (en_cfg e)). }
    split; [done|]. split; [|done]. intros n. split.
    - intros (h & i & Hg & Hh). unfold get_collection in Hg. rewrite H1 in Hg. destruct (db_colls D !! n) as [j|] eqn:Ej; [|done].
      apply H5 in Ej as (e & He & E & _). by exists e.
    - intros (e & He & <-). destruct (Hent e He) as (h & Hn & _). by exists h.
  Qed.

  (** The whole database can be opened exactly if each of its collections can. *)
  Theorem C96_opens_iff_each_opens : forall l D cuts hs, khist fresh_db l D -> names_ok l -> cut_handles cuts (db_handles D) hs ->
    (exists D', db_open (db_disk (died D hs)) = Val D') <->
    (forall n h, names_to (died D hs) n h -> exists s, reopen (disk_of (hd_st h)) = Val s).
  Proof using.
    intros l D cuts hs Hl Hok Hcut. pose proof (khist_KI _ _ _ _ _ _ _ Hl Hok) as HK. pose proof (KI_rows_names _ _ _ _ _ _ _ _ HK) as Hnm.
    pose proof (KI_nodup _ _ _ _ _ _ _ _ HK) as Hnd. pose proof HK as [H1 H2 H3 H4 H5 H6 H7 H8].
    rewrite (open_iff (died D hs) Hnd). change (db_rows (died D hs)) with (db_rows D).
    assert (Hhd : forall e, e ∈ entries l -> exists h, hs !! en_idx e = Some h /\ db_colls D !! en_name e = Some (en_idx e)).
    { intros e He. destruct (H7 e He) as (h & Hh & _). destruct Hcut as [_ Hcut]. destruct (Hcut _ _ Hh) as (h' & Hh' & _). exists h'. split; [done|]. apply H5. by exists e. }
    split.
    - intros H n h (i & Hg & Hh). unfold get_collection in Hg. cbn [died db_closed db_colls db_handles] in *. rewrite H1 in Hg.
      destruct (db_colls D !! n) as [j|] eqn:Ej; [|done]. apply Val_inj in Hg as ->. pose proof Ej as Ej2. apply H5 in Ej2 as (e & He & E & _).
      assert (n ∈ names (db_rows D)) as Hin by (rewrite Hnm, <- E; by apply elem_of_list_fmap_1). apply elem_of_list_fmap in Hin as (r & -> & Hr).
      destruct (H r Hr) as [h2 Hh2]. apply new_collection_val in Hh2 as (_ & _ & s & Hs & _). rewrite disk_files in Hs. cbn [died db_colls db_handles] in Hs.
      rewrite Ej in Hs. cbn [mbind option_bind] in Hs. rewrite Hh in Hs. by exists s.
    - intros H r Hr. assert (row_cfg r ∈ (fun e => stored (en_cfg e)) <$> entries l) as Hin by (rewrite <- H2; apply elem_of_list_fmap; by exists r).
      apply elem_of_list_fmap in Hin as (e & Er & He). destruct (Hhd e He) as (h & Hh & Ec). destruct (H6 e He) as (Hp & _).
      destruct (H (en_name e) h) as [s Hs].
      { exists (en_idx e). unfold get_collection. cbn [died db_closed db_colls db_handles]. by rewrite H1, Ec. }
      eexists. rewrite Er, disk_files. change (cf_name (stored (en_cfg e))) with (en_name e). cbn [died db_colls db_handles]. rewrite Ec. cbn [mbind option_bind]. rewrite Hh.
      apply new_collection_ok; [|exact Hs]. unfold row_config. rewrite Er. apply Hp.
  Qed.

  (** ** C97 Acknowledged objects of every collection survive *)
  (** The collection, or the object, was not asked to be deleted by the event. *)
  Definition spares_name (n : string) (e : kev) : Prop :=
    match e with KDo (VDelete m (Val _)) => m <> n | KCrash _ (Some (OpDelete m, true)) => m <> n | _ => True end.
  Definition spares_id (id : N) (e : kev) : Prop :=
    match e with
    | KDo (VUse _ c _) => ev_deletes id (EvCall c (RSize (Val 0))) = false
    | KCrash cuts _ => forall i c k, cuts !! i = Some (c, k) -> ev_deletes id (EvCrash c k) = false
    | _ => True
    end.
  Lemma entries_keep n id l : Forall (spares_name n) l -> Forall (spares_id id) l -> forall P e, e ∈ P -> en_name e = n ->
    exists e' h2, e' ∈ foldl entries_step P l /\ en_cfg e' = en_cfg e /\ en_hist e' = en_hist e ++ h2 /\ existsb (ev_deletes id) h2 = false.
  Proof using.
    clear. induction l as [|v l IH]; intros Hn Hi P e He Ee; [exists e, []; by rewrite app_nil_r|].
    apply Forall_cons in Hn as [Hv Hn]. apply Forall_cons in Hi as [Hvi Hi]. cbn [foldl].
    assert (exists e1 h1, e1 ∈ entries_step P v /\ en_cfg e1 = en_cfg e /\ en_hist e1 = en_hist e ++ h1 /\ existsb (ev_deletes id) h1 = false) as (e1 & h1 & G1 & G2 & G3 & G4).
    { assert (Hre : forall Q e0, e0 ∈ Q -> exists e1, e1 ∈ renumber Q /\ en_cfg e1 = en_cfg e0 /\ en_hist e1 = en_hist e0).
      { intros Q e0 [k Hk]%elem_of_list_lookup. exists (Entry (en_cfg e0) k (en_hist e0)). split; [|done]. apply elem_of_list_lookup. exists k. unfold renumber. by rewrite list_lookup_imap, Hk. }
      destruct v as [[c [i|?|?]|m [[]|?|?]|m r|i c r|]|cuts op]; cbn [entries_step spares_name spares_id] in *;
        try (exists e, []; rewrite app_nil_r; by split_and!).
      - exists e, []. rewrite app_nil_r. split_and!; try done. apply elem_of_app. by left.
      - exists e, []. rewrite app_nil_r. split_and!; try done. apply elem_of_list_filter. split; [|done]. rewrite Ee. done.
      - destruct (decide (en_idx e = i)) as [E|E].
        + exists (add_ev (EvCall c r) e), [EvCall c r]. split_and!; try done.
          * apply elem_of_list_fmap. exists e. split; [|done]. by rewrite decide_True by done.
          * cbn [existsb]. rewrite orb_false_r. exact Hvi.
        + exists e, []. rewrite app_nil_r. split_and!; try done. apply elem_of_list_fmap. exists e. split; [|done]. by rewrite decide_False by done.
      - destruct (Hre (add_ev EvRestart <$> P) (add_ev EvRestart e)) as (e1 & K1 & K2 & K3); [by apply elem_of_list_fmap_1|].
        exists e1, [EvRestart]. by split_and!.
      - set (f := fun e => add_ev (cut_event cuts (en_idx e)) e).
        assert (exists h1, en_hist (f e) = en_hist e ++ h1 /\ existsb (ev_deletes id) h1 = false) as (h1 & E1 & E2).
        { exists [cut_event cuts (en_idx e)]. split; [done|]. unfold cut_event. destruct (cuts !! en_idx e) as [[c k]|] eqn:Ec; [|done].
          cbn [existsb]. rewrite orb_false_r. by eapply Hvi. }
        assert (f e ∈ f <$> match op with Some (OpDelete n0, true) => drop_name n0 P | _ => P end) as Hin.
        { apply elem_of_list_fmap_1. destruct op as [[[c|m] []]|]; try done. apply drop_elem. split; [done|]. rewrite Ee. done. }
        destruct (Hre match op with Some (OpCreate c, true) => (f <$> match op with Some (OpDelete n0, true) => drop_name n0 P | _ => P end) ++ [Entry c 0 [EvRestart]]
           | _ => f <$> match op with Some (OpDelete n0, true) => drop_name n0 P | _ => P end end (f e)) as (e1 & K1 & K2 & K3).
        { destruct op as [[[c|m] []]|]; try done. apply elem_of_app. by left. }
        exists e1, h1. split_and!; [exact K1|done|by rewrite K3|done]. }
    destruct (IH Hn Hi (entries_step P v) e1 G1) as (e' & h2 & K1 & K2 & K3 & K4); [unfold en_name; by rewrite G2|].
    exists e', (h1 ++ h2). split_and!; [done|by rewrite K2|by rewrite K3, G3, app_assoc|]. rewrite existsb_app. by rewrite G4, K4.
  Qed.
  Lemma khist_trans D l1 D1 l2 D2 : khist D l1 D1 -> khist D1 l2 D2 -> khist D (l1 ++ l2) D2.
  Proof using.
    intros H1 H2. induction H2 as [|l e D3 D4 H2 IH Hs]; [by rewrite app_nil_r|]. rewrite app_assoc. by econstructor.
  Qed.

  (** What one collection has acknowledged is there at the end of its life. *)
  Lemma params_json c C : params c = Some C -> cp_json C = J /\ cp_maxval C = maxv.
  Proof using. unfold cparams_of. destruct (cf_params c); [done..|]. by intros [= <-]. Qed.
  Lemma acked_kept C h1 c r h2 s0 s o : SInv s0 -> hist C s0 (h1 ++ EvCall c r :: h2) s -> (cnt s0 + N.of_nat (hist_inserts (h1 ++ EvCall c r :: h2)) < 2 ^ 64)%N ->
    o ∈ acked (EvCall c r) -> existsb (ev_deletes (o_id o)) h2 = false -> StoreProofs.stored C s o /\ (o_id o < cnt s)%N /\ is_Some (o_vec o).
  Proof using.
    clear. intros HI Hh Hb Ho Hd.
    destruct (hist_app_inv C _ _ _ _ Hh) as (s1 & H1 & H2). change (EvCall c r :: h2) with ([EvCall c r] ++ h2) in H2.
    destruct (hist_app_inv C _ _ _ _ H2) as (s2 & H3 & H4). apply hist_one in H3. rewrite hist_inserts_app in Hb.
    assert (Hb2 : hist_inserts (EvCall c r :: h2) = ev_inserts (EvCall c r) + hist_inserts h2) by done. rewrite Hb2 in Hb.
    destruct (hist_store C s0 h1 s1 HI) as [HI1 Hc1]; [lia|done|].
    destruct (acked_stored C s1 (EvCall c r) s2 o HI1 ltac:(lia) H3 Ho) as (Hst & Hid & Hv & _).
    destruct (ev_step_store C s1 (EvCall c r) s2 HI1 ltac:(lia) H3) as (HI2 & ids & Hw). pose proof (ew_cnt _ _ _ _ _ Hw) as Hcc.
    destruct (hist_keep C s2 h2 s (o_id o) HI2 ltac:(lia) H4 Hid) as [K1 K2]. destruct (hist_store C s2 h2 s HI2 ltac:(lia) H4) as [_ Hc3].
    split; [|split; [lia|done]].
    destruct Hst as (ob & vb & A1 & A2 & A3 & A4 & A5 & A6). exists ob, vb. split_and!; try done; [|congruence].
    destruct K2 as [K2|[_ K2]]; [congruence|]. rewrite Hd in K2. done.
  Qed.
  Lemma life_acked cfg h1 c r h2 s o C1 C2 : life env_embed J maxv workers fuel cfg (h1 ++ EvCall c r :: h2) s ->
    params cfg = Some C1 -> params (reloaded cfg) = Some C2 ->
    (N.of_nat (hist_inserts (h1 ++ EvCall c r :: h2)) < 2 ^ 64)%N -> o ∈ acked (EvCall c r) -> existsb (ev_deletes (o_id o)) h2 = false ->
    json_ok J (o_props o) -> Forall (fun f => (f < 2 ^ 32)%N) (default [] (o_vec o)) -> (maxv < 2 ^ 32)%N -> closed s = false ->
    get_object J s (o_id o) = Val (Some o).
  Proof using.
    intros Hl HC1 HC2 Hb Ho Hd Hj Hf Hm Hcl. destruct (life_split _ _ _ _ _ _ _ _ _ _ HC1 HC2 Hl) as (ha & hb & sa & Eh & Ha & Hbb & _).
    destruct (params_json _ _ HC1) as [J1 M1], (params_json _ _ HC2) as [J2 M2]. rewrite Eh, hist_inserts_app in Hb.
    destruct (hist_store C1 empty_st ha sa SInv_empty) as [HIa Hca]; [change (cnt empty_st) with 0%N; lia|done|]. change (cnt empty_st) with 0%N in Hca.
    assert (Hst : StoreProofs.stored C2 s o /\ is_Some (o_vec o)).
    { apply app_eq_inv in Eh as [(k & E1 & E2)|(k & E1 & E2)].
      - subst h1 hb. destruct (acked_kept C2 k c r h2 sa s o HIa Hbb) as (? & _ & ?); try done. lia.
      - destruct k as [|v k]; cbn in E2; [|].
        + subst hb. destruct (acked_kept C2 [] c r h2 sa s o HIa Hbb) as (? & _ & ?); try done. cbn [app]. lia.
        + injection E2 as <- ->. subst ha. rewrite existsb_app in Hd. apply orb_false_iff in Hd as [Hd1 Hd2].
          destruct (acked_kept C1 h1 c r k empty_st sa o SInv_empty Ha) as ((ob & vb & A1 & A2 & A3 & A4 & A5 & A6) & Hid & Hv); try done; [change (cnt empty_st) with 0%N; lia|].
          destruct (hist_keep C2 sa hb s (o_id o) HIa ltac:(lia) Hbb Hid) as [K1 K2]. split; [|done].
          exists ob, vb. rewrite J2. rewrite J1 in A1. rewrite M2. rewrite M1 in A5, A6. split_and!; try done; [|congruence].
          destruct K2 as [K2|[_ K2]]; [congruence|]. by rewrite Hd2 in K2. }
    destruct Hst as [Hst [v Hv]]. pose proof (StoreView.stored_get C2 s o Hst Hcl) as Hg. rewrite J2, M2 in Hg. specialize (Hg Hm Hj Hf).
    rewrite Hg. unfold vec_or_nil. rewrite Hv. destruct o. cbn in Hv |- *. by subst.
  Qed.

  Theorem C97_acknowledged_survives_partial : forall l1 i c r l2 D1 D2 D n h o,
    khist fresh_db l1 D1 -> kstep D1 (KDo (VUse i c r)) D2 -> khist D2 l2 D -> names_ok (l1 ++ KDo (VUse i c r) :: l2) ->
    get_collection n D1 = Val i -> o ∈ acked (EvCall c r) ->
    Forall (spares_name n) l2 -> Forall (spares_id (o_id o)) l2 ->
    (forall e, e ∈ entries (l1 ++ KDo (VUse i c r) :: l2) -> en_name e = n -> (N.of_nat (hist_inserts (en_hist e)) < 2 ^ 64)%N) ->
    (maxv < 2 ^ 32)%N -> json_ok J (o_props o) -> Forall (fun f => (f < 2 ^ 32)%N) (default [] (o_vec o)) ->
    (exists h, names_to D n h) /\
    (names_to D n h -> closed (hd_st h) = false -> exists C, params (hd_cfg h) = Some C /\ exec (CollModel.get C [o_id o]) (hd_st h) = Some (hd_st h, Val [o])).
  Proof using.
    intros l1 i c r l2 D1 D2 D n h o H1 Hs H2 Hok Hg Ho Hn Hid Hlean Hmax Hj Hf.
    assert (HD : khist fresh_db (l1 ++ KDo (VUse i c r) :: l2) D).
    { replace (l1 ++ KDo (VUse i c r) :: l2) with ((l1 ++ [KDo (VUse i c r)]) ++ l2) by (by rewrite <- app_assoc). eapply khist_trans; [by econstructor|done]. }
    assert (Hok1 : names_ok l1).
    { intros la e lb ->. apply (Hok la e (lb ++ KDo (VUse i c r) :: l2)). by rewrite <- app_assoc. }
    pose proof (khist_KI _ _ _ _ _ _ _ H1 Hok1) as HK1.
    assert (exists e0, e0 ∈ entries l1 /\ en_name e0 = n /\ en_idx e0 = i) as (e0 & He0 & En & Ei).
    { apply (ki_colls _ _ _ _ _ _ _ _ HK1). unfold get_collection in Hg. rewrite (ki_open _ _ _ _ _ _ _ _ HK1) in Hg. destruct (db_colls D1 !! n); [|done]. by apply Val_inj in Hg as ->. }
    set (e1 := add_ev (EvCall c r) e0).
    assert (He1 : e1 ∈ entries (l1 ++ [KDo (VUse i c r)])).
    { rewrite entries_snoc. cbn [entries_step]. apply elem_of_list_fmap. exists e0. split; [|done]. by rewrite decide_True by done. }
    destruct (entries_keep n (o_id o) l2 Hn Hid _ e1 He1 En) as (e' & h2 & K1 & K2 & K3 & K4).
    assert (K0 : e' ∈ entries (l1 ++ KDo (VUse i c r) :: l2)).
    { replace (l1 ++ KDo (VUse i c r) :: l2) with ((l1 ++ [KDo (VUse i c r)]) ++ l2) by (by rewrite <- app_assoc). unfold entries in *. by rewrite foldl_app. }
    destruct (C96_collections_are_independent_partial _ _ HD Hok) as (_ & _ & Hent). destruct (Hent e' K0) as (h' & Hn' & _ & Ecfg & Hlife & _).
    assert (en_name e' = n) as En' by (unfold en_name; rewrite K2; exact En). rewrite En' in Hn'. split; [by exists h'|].
    intros Hh Hcl. assert (h = h') as ->.
    { destruct Hh as (j1 & E1 & E2), Hn' as (j2 & E3 & E4). rewrite E1 in E3. apply Val_inj in E3 as ->. rewrite E2 in E4. by injection E4. }
    specialize (Hlean e' K0 En'). destruct (ki_ent _ _ _ _ _ _ _ _ (khist_KI _ _ _ _ _ _ _ HD Hok) e' K0) as (Hp & Hv & _).
    destruct (params_now env_embed J maxv workers fuel _ (en_hist e') Hp Hv) as [C HC]. exists C. rewrite Ecfg. split; [exact HC|].
    destruct (params_now env_embed J maxv workers fuel _ [] Hp Hv) as [C1 HC1]. change (cfg_now (en_cfg e') []) with (en_cfg e') in HC1.
    destruct (params_now env_embed J maxv workers fuel _ [EvRestart] Hp Hv) as [C2 HC2]. change (cfg_now (en_cfg e') [EvRestart]) with (reloaded (en_cfg e')) in HC2.
    assert (en_hist e' = en_hist e0 ++ EvCall c r :: h2) as Eh by (rewrite K3; cbn; by rewrite <- app_assoc). rewrite Eh in Hlife, Hlean.
    pose proof (life_acked _ _ _ _ _ _ _ _ _ Hlife HC1 HC2 Hlean Ho K4 Hj Hf Hmax Hcl) as Hgo.
    unfold CollModel.get. rewrite exec_act, Hcl. assert (cp_json C = J) as -> by (by apply params_json in HC as [? _]). cbn [get_objects]. by rewrite Hgo.
  Qed.

  (** ** C98 A deletion that fails can be repeated *)
  (** What happens after a DeleteCollection whose os.RemoveAll returns an error: until the
      database is opened again the collection can neither be deleted nor created, and
      its name still stands for the old handle. *)
  Theorem C98_failed_removal_partial : forall D n D1 l D2,
    delete_unremoved n D = (D1, Err EIO) -> dhist env_embed J maxv workers fuel D1 l D2 -> Forall (fun v => ~ is_reopen v) l ->
    (exists i, get_collection n D = Val i /\ get_collection n D2 = Val i) /\
    delete_collection n D2 = (D2, Err EMetaMissing) /\
    (forall c, cf_name c = n -> exists e2, create_collection c D2 = (D2, Err e2)).
  Proof using.
    intros D n D1 l D2 Hd Hl Hnr. unfold delete_unremoved in Hd. destruct (db_closed D) eqn:Ecl; [done|].
    destruct (db_colls D !! n) as [i|] eqn:Ei; [|done]. destruct (existsb _ _) eqn:Ex; [|done].
    injection Hd as <-.
    assert (db_closed D2 = false /\ db_colls D2 !! n = Some i /\ n ∉ names (db_rows D2)) as (G1 & G2 & G3).
    { induction Hl as [|l v Da Db Hl IH Hs].
      - cbn. split_and!; [done..|]. unfold drop_row. rewrite names_filter. by intros [_ []].
      - apply Forall_app in Hnr as [Hnr Hv]. apply Forall_cons in Hv as [Hv _]. destruct (IH Hnr) as (G1 & G2 & G3).
        inversion Hs as [c D3 r Hc|m D3 r Hc|m r Hc|j h C c s' r Hj Hp Hr|D3 Ho]; subst; [| |done|done|by destruct Hv].
        + destruct r as [j|e|p].
          * apply create_val in Hc as (_ & _ & Hcn & _ & _ & _ & -> & ->). cbn. assert (cf_name c <> n) as Hx by (intros E; rewrite E, G2 in Hcn; done).
            split_and!; [done|by rewrite lookup_insert_ne|]. unfold names. rewrite fmap_app, elem_of_app. intros [H|H%elem_of_list_singleton]; [done|]. by apply Hx.
          * destruct (decide (cf_name c = n)) as [Ec|Ec].
            { unfold create_collection in Hc. rewrite G1, Ec, G2 in Hc. destruct (validate c) as [[]|e3|p3] eqn:Ev; [by injection Hc as <- _|by injection Hc as <- _|by apply validate_no_pan in Ev]. }
            apply create_fail in Hc as (_ & E1 & _ & E2 & E3); [|done]. rewrite E1, E2. split_and!; [done..|].
            destruct E3 as [-> |[-> _]]; [done|]. unfold names. rewrite fmap_app, elem_of_app. intros [H|H%elem_of_list_singleton]; [done|]. by apply Ec.
          * by apply create_fail in Hc as ([e [=]] & _).
        + destruct r as [[]|e|p]; [|by apply delete_fail in Hc as [-> _]|by apply delete_fail in Hc as [-> _]]. apply delete_val in Hc as (_ & _ & Hin & ->). cbn.
          assert (m <> n) as Hx by (by intros ->). split_and!; [done|by rewrite lookup_delete_ne|]. rewrite names_filter. by intros [? _]. }
    split; [exists i; unfold get_collection; by rewrite Ecl, Ei, G1, G2|]. split.
    - unfold delete_collection. rewrite G1, G2. apply existsb_names_false in G3. by rewrite G3.
    - intros c <-. unfold create_collection. rewrite G1, G2. destruct (validate c) as [[]|e2|p] eqn:Ev; [by eexists|by eexists|by apply validate_no_pan in Ev].
  Qed.
End crash.
Print Assumptions C94_create_crash_partial.
Print Assumptions C95_delete_crash_partial.
Print Assumptions C96_collections_are_independent_partial.
Print Assumptions C96_opens_iff_each_opens.
Print Assumptions C97_acknowledged_survives_partial.
Print Assumptions C98_failed_removal_partial.

(** ** Concrete crashes *)
Section runs.
  Context (env_embed : string -> jval -> embedder) (J : json) (maxv : N) (workers fuel : nat).
  Lemma dhist_khist D l D' : dhist env_embed J maxv workers fuel D l D' -> khist env_embed J maxv workers fuel D (KDo <$> l) D'.
  Proof using. induction 1 as [|l e D1 D2 H IH Hs]; [constructor|]. rewrite fmap_app. econstructor; [done|]. by constructor. Qed.
  Lemma cut_nothing hs : cut_handles env_embed J maxv workers fuel ∅ hs hs.
  Proof using. split; [done|]. intros i h Hi. exists h. by rewrite lookup_empty. Qed.
  Lemma fresh_names_ok l : Forall plain_ev l -> names_ok (KDo <$> l).
  Proof using.
    intros Hf l1 e l2 E. assert (Hx : dirty l1 = ∅ /\ exists v, e = KDo v /\ plain_ev v).
    { revert l1 E. clear -Hf. induction Hf as [|v l Hv Hf IH]; intros [|e1 l1] E; try done.
      - injection E as <- _. split; [done|]. by exists v.
      - injection E as <- E. destruct (IH l1 E) as [E1 E2]. split; [|done]. exact E1. }
    destruct Hx as (-> & v & -> & Hv). destruct v; cbn in *; done.
  Qed.
End runs.

(** A collection "x" with the object of vector 0 in it. *)
Definition x_script : list dsev := [QCreate (ok_cfg "x" []); QUse 0 (CInsert true 0 (ob0 0)) 0].
Definition x_run : option (list dev * db) := Eval vm_compute in drun no_embed ex_json 65536 2 50 x_script fresh_db.
Definition x_evs : list dev := match x_run with Some (l, _) => l | None => [] end.
Definition x_db : db := match x_run with Some (_, D) => D | None => fresh_db end.
Lemma x_dhist : dhist no_embed ex_json 65536 2 50 fresh_db x_evs x_db.
Proof. apply (drun_ok no_embed ex_json 65536 2 50 x_script). vm_compute. reflexivity. Qed.
Lemma x_khist : khist no_embed ex_json 65536 2 50 fresh_db (KDo <$> x_evs) x_db.
Proof. apply dhist_khist, x_dhist. Qed.
Lemma x_names_ok : names_ok (KDo <$> x_evs).
Proof.
  apply fresh_names_ok. apply Forall_cons_2; [apply ok_plain; [cbn; intuition discriminate|done..]|]. apply Forall_cons_2; [exact I|apply Forall_nil_2].
Qed.

(** ** C94, concretely *)
(** The full statement fails where creation itself cannot succeed: the process
    dies after the row was saved and no later Open works. *)
Theorem C94_create_crash_refuted : db_open (db_disk fresh_db) = Val fresh_db /\
  (exists c D1, documented c /\ create_cut c fresh_db true D1 /\ db_open (db_disk D1) = Err EUnknownIndexType) /\
  (exists c D1, documented c /\ cf_index c = "hnsw"%string /\ create_cut c fresh_db true D1 /\ db_open (db_disk D1) = Err ENotDir).
Proof.
  split; [by vm_compute|]. split.
  - exists (ann_cfg "v"). eexists. split; [split_and!; try done; by left|]. split; [apply CreateRow; vm_compute; reflexivity|vm_compute; reflexivity].
  - exists (ok_cfg "metadata.db" []). eexists. split; [by apply ok_documented|]. split; [done|]. split; [apply CreateRow; vm_compute; reflexivity|vm_compute; reflexivity].
Qed.
Print Assumptions C94_create_crash_refuted.
(** Both outcomes occur, next to a collection with an object in it. *)
Definition val_db (r : out db) : db := match r with Val D => D | _ => fresh_db end.
Definition nth_st (i : nat) (D : db) : st := match db_handles D !! i with Some h => hd_st h | None => empty_st end.
Definition x_back : db := Eval vm_compute in val_db (db_open (db_disk x_db)).
Definition y_cut : db := Eval vm_compute in default fresh_db (meta_save (ok_cfg "y" []) x_db).
Definition y_back : db := Eval vm_compute in val_db (db_open (db_disk y_cut)).
Lemma x_back_open : db_open (db_disk x_db) = Val x_back.
Proof. vm_compute. reflexivity. Qed.
Lemma y_back_open : db_open (db_disk y_cut) = Val y_back.
Proof. vm_compute. reflexivity. Qed.
Lemma x_same : died x_db (db_handles x_db) = x_db.
Proof. reflexivity. Qed.
Lemma y_create : create_cut (ok_cfg "y" []) x_db true y_cut.
Proof. apply CreateRow; vm_compute; reflexivity. Qed.
Example C94_case : exists c D1 D0 D' h, plain c /\ documented c /\ cf_name c ∉ dirty (KDo <$> x_evs) /\
  khist no_embed ex_json 65536 2 50 fresh_db (KDo <$> x_evs) x_db /\ names_ok (KDo <$> x_evs) /\
  create_cut c (died x_db (db_handles x_db)) true D1 /\ create_cut c (died x_db (db_handles x_db)) false (died x_db (db_handles x_db)) /\
  db_open (db_disk x_db) = Val D0 /\ db_open (db_disk D1) = Val D' /\ names_to D' "x" h /\ map_size (objs (hd_st h)) = 1 /\
  names_to D' "y" (Handle (ok_cfg "y" []) empty_st).
Proof.
  exists (ok_cfg "y" []), y_cut, x_back, y_back, (Handle (ok_cfg "x" []) (nth_st 0 y_back)).
  split; [apply ok_plain; [cbn; intuition discriminate|done..]|]. split; [by apply ok_documented|].
  split; [vm_compute; by intros H|]. split; [apply x_khist|]. split; [apply x_names_ok|]. rewrite x_same.
  split; [apply y_create|]. split; [apply CreateNotYet|]. split; [apply x_back_open|]. split; [apply y_back_open|].
  split; [exists 0; split; vm_compute; reflexivity|]. split; [vm_compute; reflexivity|]. exists 1. split; vm_compute; reflexivity.
Qed.

(** ** C95, concretely *)
(** The process dies after the row of "x" was deleted and before its files
    were.  The collection is gone; creating it again fails, and yet the next
    Open shows it, with the old object. *)
Definition gone_cut : db :=
  DB (drop_row "x" x_db) (db_next x_db) (<["x"%string := FDir (disk_of (nth_st 0 x_db))]> (db_files x_db)) (delete "x"%string (db_colls x_db)) (db_handles x_db) (db_closed x_db).
Definition gone_db : db := Eval vm_compute in val_db (db_open (db_disk gone_cut)).
Definition gone_tried : db := Eval vm_compute in (create_collection (ok_cfg "x" []) gone_db).1.
Definition gone_again : db := Eval vm_compute in val_db (db_open (db_disk gone_tried)).
Lemma gone_open : db_open (db_disk gone_cut) = Val gone_db.
Proof. vm_compute. reflexivity. Qed.
Lemma gone_try : create_collection (ok_cfg "x" []) gone_db = (gone_tried, Err EExist).
Proof. vm_compute. reflexivity. Qed.
Lemma gone_reopen : db_open (db_disk gone_tried) = Val gone_again.
Proof. vm_compute. reflexivity. Qed.
Definition ok_C : cparams := CParams (hparams_of ok_raw) [] None ex_json 65536 2 50.
Lemma gone_get : exec (CollModel.get ok_C [0%N]) (nth_st 0 gone_again) = Some (nth_st 0 gone_again, Val [ob0 0]).
Proof. vm_compute. reflexivity. Qed.
Theorem C95_delete_crash_refuted : exists l D D1 D' c D2 D3 h C o,
  khist no_embed ex_json 65536 2 50 fresh_db l D /\ names_ok l /\ (exists h0, names_to D "x" h0) /\
  delete_cut "x" D true D1 /\ db_open (db_disk D1) = Val D' /\ (forall h0, ~ names_to D' "x" h0) /\
  plain c /\ documented c /\ cf_name c = "x"%string /\ create_collection c D' = (D2, Err EExist) /\
  db_open (db_disk (db_close D2).1) = Val D3 /\ names_to D3 "x" h /\
  cparams_of no_embed ex_json 65536 2 50 (hd_cfg h) = Some C /\ exec (CollModel.get C [0%N]) (hd_st h) = Some (hd_st h, Val [o]).
Proof.
  exists (KDo <$> x_evs), x_db, gone_cut, gone_db, (ok_cfg "x" []), gone_tried, gone_again, (Handle (ok_cfg "x" []) (nth_st 0 gone_again)), ok_C, (ob0 0).
  split; [apply x_khist|]. split; [apply x_names_ok|].
  split; [exists (Handle (ok_cfg "x" []) (nth_st 0 x_db)); exists 0; split; vm_compute; reflexivity|].
  split; [apply (DeleteRow "x" x_db (Some (disk_of (nth_st 0 x_db)))); [done|vm_compute; by eexists|vm_compute; reflexivity]|].
  split; [apply gone_open|]. split; [intros h0 (i & Hi & _); vm_compute in Hi; done|].
  split; [apply ok_plain; [cbn; intuition discriminate|done..]|]. split; [by apply ok_documented|]. split; [done|].
  split; [apply gone_try|]. split; [rewrite close_disk; apply gone_reopen|]. split; [exists 0; split; vm_compute; reflexivity|].
  split; [reflexivity|]. apply gone_get.
Qed.
Print Assumptions C95_delete_crash_refuted.
Example C95_case : exists D1 D0, khist no_embed ex_json 65536 2 50 fresh_db (KDo <$> x_evs) x_db /\ names_ok (KDo <$> x_evs) /\
  delete_cut "x" (died x_db (db_handles x_db)) true D1 /\ db_open (db_disk x_db) = Val D0 /\ (exists h, names_to D0 "x" h) /\
  dd_files (db_disk D1) !! "x"%string = None.
Proof.
  rewrite x_same. eexists _, x_back. split; [apply x_khist|]. split; [apply x_names_ok|].
  split; [apply (DeleteRow "x" x_db None); [done|vm_compute; by eexists|vm_compute; reflexivity]|].
  split; [apply x_back_open|]. split; [exists (Handle (ok_cfg "x" []) (nth_st 0 x_back)); exists 0; split; vm_compute; reflexivity|]. vm_compute. reflexivity.
Qed.

(** ** C96, concretely *)
(** A collection with mappings does not behave as if it were alone: after a
    restart of the database it accepts an object it would have refused. *)
Definition m_script : list dsev := [QCreate (ok_cfg "x" ["a"%string]); QReopen; QUse 0 (CInsert true 0 (ob0 0)) 0].
Definition m_run : option (list dev * db) := Eval vm_compute in drun no_embed ex_json 65536 2 50 m_script fresh_db.
Definition m_evs : list dev := match m_run with Some (l, _) => l | None => [] end.
Definition m_db : db := match m_run with Some (_, D) => D | None => fresh_db end.
Lemma m_dhist : dhist no_embed ex_json 65536 2 50 fresh_db m_evs m_db.
Proof. apply (drun_ok no_embed ex_json 65536 2 50 m_script). vm_compute. reflexivity. Qed.
Theorem C96_collections_are_independent_refuted : exists l D e, khist no_embed ex_json 65536 2 50 fresh_db l D /\ names_ok l /\ e ∈ entries l /\
  (exists h, names_to D (en_name e) h) /\
  forall C s, cparams_of no_embed ex_json 65536 2 50 (en_cfg e) = Some C -> ~ hist C empty_st (en_hist e) s.
Proof.
  exists (KDo <$> m_evs), m_db, (Entry (ok_cfg "x" ["a"%string]) 0 [EvRestart; EvCall (CInsert true 0 (ob0 0)) (RIns (Val (ob0 0)))]).
  split; [apply dhist_khist, m_dhist|].
  split. { apply fresh_names_ok. apply Forall_cons_2; [apply ok_plain; [cbn; intuition discriminate|done..]|]. repeat (apply Forall_cons_2; [exact I|]). apply Forall_nil_2. }
  split; [vm_compute; by left|].
  split; [exists (Handle (ok_cfg "x" []) (nth_st 0 m_db)); exists 0; split; vm_compute; reflexivity|].
  intros C s [= <-] Hh. cbn [en_hist] in Hh. set (C := CParams _ _ _ _ _ _ _) in *.
  change [EvRestart; EvCall (CInsert true 0 (ob0 0)) (RIns (Val (ob0 0)))] with ([EvRestart] ++ [EvCall (CInsert true 0 (ob0 0)) (RIns (Val (ob0 0)))]) in Hh.
  destruct (hist_app_inv C _ _ _ _ Hh) as (s1 & _ & H2). apply hist_one in H2.
  inversion H2 as [c' s2 r Hr| |]; subst. inversion Hr as [io level o s2 r Hx| | | | | | | | | |]; subst.
  destruct (C37_insert_refuses C (ob0 0) s1 true 0 s (Val (ob0 0))) as [_ [e He]]; [apply NoDup_singleton| |exact Hx|done].
  intros H. destruct (proj1 (H "a"%string)) as [v Hv]; [by left|]. vm_compute in Hv. done.
Qed.
Print Assumptions C96_collections_are_independent_refuted.

(** "x" is in the middle of a second Insert and "y" is being created when the
    process dies; both are there afterwards. *)
Definition ins2 : call := CInsert true 0 (ob0 1065353216).
Definition xy_st : st := Eval vm_compute in default empty_st (cut_exec ok_C ins2 [0; 0] (nth_st 0 x_db)).
Definition xy_cuts : gmap nat (call * nat) := {[ 0 := (ins2, 0) ]}.
Definition xy_cut : db := died x_db [Handle (ok_cfg "x" []) (wal_flush_torn 0 xy_st)].
Definition xy_row : db := Eval vm_compute in default fresh_db (meta_save (ok_cfg "y" []) xy_cut).
Definition xy_db : db := Eval vm_compute in val_db (db_open (db_disk xy_row)).
Definition xy_ev : kev := KCrash xy_cuts (Some (OpCreate (ok_cfg "y" []), true)).
Lemma xy_step : kstep no_embed ex_json 65536 2 50 x_db xy_ev xy_db.
Proof.
  apply (KStCrash no_embed ex_json 65536 2 50 x_db xy_cuts _ [Handle (ok_cfg "x" []) (wal_flush_torn 0 xy_st)] xy_row).
  - split; [vm_compute; reflexivity|]. intros [|i] h Hi; [|vm_compute in Hi; done]. assert (h = Handle (ok_cfg "x" []) (nth_st 0 x_db)) as -> by (vm_compute in Hi |- *; congruence).
    exists (Handle (ok_cfg "x" []) (wal_flush_torn 0 xy_st)). split; [done|]. split; [done|]. change (xy_cuts !! 0) with (Some (ins2, 0)). cbv iota beta.
    exists ok_C, xy_st. split; [reflexivity|]. split; [|reflexivity]. apply (cut_exec_cut ok_C ins2 [0; 0]). vm_compute. reflexivity.
  - apply CreateRow; vm_compute; reflexivity.
  - vm_compute. reflexivity.
Qed.
Lemma xy_khist : khist no_embed ex_json 65536 2 50 fresh_db ((KDo <$> x_evs) ++ [xy_ev]) xy_db.
Proof. econstructor; [apply x_khist|apply xy_step]. Qed.
Lemma names_ok_app l e : names_ok l -> names_ok_ev (dirty l) e -> names_ok (l ++ [e]).
Proof.
  intros Hl He l1 e1 l2 E. destruct l2 as [|e2 l2 _] using rev_ind.
  - apply app_inj_tail in E as [-> ->]. done.
  - rewrite app_comm_cons, app_assoc in E. apply app_inj_tail in E as [-> _]. by apply (Hl l1 e1 l2).
Qed.
Lemma xy_names_ok : names_ok ((KDo <$> x_evs) ++ [xy_ev]).
Proof.
  apply names_ok_app; [apply x_names_ok|]. split; [apply ok_plain; [cbn; intuition discriminate|done..]|]. vm_compute. by intros H.
Qed.
Lemma ok_lean n : ~ In "/"%char (list_ascii_of_string n) -> n <> "."%string -> n <> ".."%string -> n <> "metadata.db"%string -> lean (ok_cfg n []).
Proof. intros ? ? ? ?. split; [by apply ok_plain|]. split; [|done]. intros r [= <-]. done. Qed.
Example C96_case : khist no_embed ex_json 65536 2 50 fresh_db ((KDo <$> x_evs) ++ [xy_ev]) xy_db /\ names_ok ((KDo <$> x_evs) ++ [xy_ev]) /\
  entries ((KDo <$> x_evs) ++ [xy_ev]) =
    [ Entry (ok_cfg "x" []) 0 [EvCall (CInsert true 0 (ob0 0)) (RIns (Val (ob0 0))); EvCrash ins2 0]; Entry (ok_cfg "y" []) 1 [EvRestart] ] /\
  lean (ok_cfg "x" []) /\ lean (ok_cfg "y" []).
Proof.
  split; [apply xy_khist|]. split; [apply xy_names_ok|]. split; [vm_compute; reflexivity|].
  split; apply ok_lean; [cbn; intuition discriminate|done|done|done|cbn; intuition discriminate|done..].
Qed.

Lemma dhist_last {env_embed J maxv workers fuel} D l e D' (H : dhist env_embed J maxv workers fuel D (l ++ [e]) D') :
  exists D1, dhist env_embed J maxv workers fuel D l D1 /\ dstep env_embed J maxv workers fuel D1 e D'.
Proof.
  remember (l ++ [e]) as L eqn:E. destruct H as [|l2 e2 D1 D2 H1 H2]; [by destruct l|]. apply app_inj_tail in E as [-> ->]. by exists D1.
Qed.

(** ** C97, concretely: the object "x" acknowledged before the crash *)
Definition x_evs1 : list dev := [VCreate (ok_cfg "x" []) (Val 0)].
Example C97_case : exists D1, 
  khist no_embed ex_json 65536 2 50 fresh_db (KDo <$> x_evs1) D1 /\ kstep no_embed ex_json 65536 2 50 D1 (KDo (VUse 0 (CInsert true 0 (ob0 0)) (RIns (Val (ob0 0))))) x_db /\
  khist no_embed ex_json 65536 2 50 x_db [xy_ev] xy_db /\
  names_ok ((KDo <$> x_evs1) ++ KDo (VUse 0 (CInsert true 0 (ob0 0)) (RIns (Val (ob0 0)))) :: [xy_ev]) /\ get_collection "x" D1 = Val 0 /\
  ob0 0 ∈ acked (EvCall (CInsert true 0 (ob0 0)) (RIns (Val (ob0 0)))) /\
  Forall (spares_name "x") [xy_ev] /\ Forall (spares_id 0) [xy_ev] /\
  (forall e, e ∈ entries ((KDo <$> x_evs1) ++ KDo (VUse 0 (CInsert true 0 (ob0 0)) (RIns (Val (ob0 0)))) :: [xy_ev]) -> en_name e = "x"%string -> (N.of_nat (hist_inserts (en_hist e)) < 2 ^ 64)%N) /\
  json_ok ex_json (o_props (ob0 0)) /\ closed (nth_st 0 xy_db) = false.
Proof.
  pose proof x_dhist as H. change x_evs with (x_evs1 ++ [VUse 0 (CInsert true 0 (ob0 0)) (RIns (Val (ob0 0)))]) in H.
  destruct (dhist_last _ _ _ _ H) as (D1 & H1 & H2). exists D1.
  split; [by apply dhist_khist|]. split; [by constructor|]. split.
  { change [xy_ev] with ([] ++ [xy_ev]). econstructor; [constructor|apply xy_step]. }
  split; [exact xy_names_ok|]. split.
  { change x_evs1 with ([] ++ x_evs1) in H1. destruct (dhist_last _ _ _ _ H1) as (D3 & _ & H4). inversion H4 as [c D5 r Hc| | | |]; subst. apply create_val in Hc as (Hop & _ & _ & _ & _ & _ & _ & ->).
    unfold get_collection. cbn [db_closed db_colls]. by rewrite lookup_insert. }
  split; [by left|]. split; [apply Forall_singleton; exact I|]. split.
  { apply Forall_singleton. intros i c k Hi. unfold xy_cuts in Hi; apply lookup_singleton_Some in Hi as [_ [= <- <-]]. reflexivity. }
  split; [|split; [|vm_compute; reflexivity]].
  - intros e He _.
    assert (E : entries ((KDo <$> x_evs1) ++ KDo (VUse 0 (CInsert true 0 (ob0 0)) (RIns (Val (ob0 0)))) :: [xy_ev]) =
      [ Entry (ok_cfg "x" []) 0 [EvCall (CInsert true 0 (ob0 0)) (RIns (Val (ob0 0))); EvCrash ins2 0]; Entry (ok_cfg "y" []) 1 [EvRestart] ]) by (vm_compute; reflexivity).
    rewrite E in He. apply elem_of_cons in He as [-> |He]; [|apply elem_of_list_singleton in He as ->].
    + vm_compute. reflexivity.
    + vm_compute. reflexivity.
  - eexists; split; vm_compute; reflexivity.
Qed.

(** The same with mappings, which the reopened collection has lost: the object
    with the mapped property is still there. *)
Definition oba : object := Object 0 {[ "a"%string := JNum 1 ]} (Some [0%N]).
Definition a_script : list dsev := [QCreate (ok_cfg "x" ["a"%string]); QUse 0 (CInsert true 0 oba) 0; QReopen].
Definition a_run : option (list dev * db) := Eval vm_compute in drun no_embed ex_json 65536 2 50 a_script fresh_db.
Definition a_evs : list dev := match a_run with Some (l, _) => l | None => [] end.
Definition a_db : db := match a_run with Some (_, D) => D | None => fresh_db end.
Example C97_case_mapped : khist no_embed ex_json 65536 2 50 fresh_db (KDo <$> a_evs) a_db /\
  a_evs = [VCreate (ok_cfg "x" ["a"%string]) (Val 0); VUse 0 (CInsert true 0 oba) (RIns (Val oba)); VReopen] /\
  names_to a_db "x" (Handle (ok_cfg "x" []) (nth_st 0 a_db)) /\ exec (CollModel.get ok_C [0%N]) (nth_st 0 a_db) = Some (nth_st 0 a_db, Val [oba]).
Proof.
  split; [apply dhist_khist, (drun_ok no_embed ex_json 65536 2 50 a_script); vm_compute; reflexivity|]. split; [vm_compute; reflexivity|].
  split; [exists 0; split; vm_compute; reflexivity|]. vm_compute. reflexivity.
Qed.

(** ** C98, concretely *)
(** The full statement fails: deleting again does not help, and after Close and
    Open the collection is gone but its name cannot be used. *)
Definition stuck_db : db := Eval vm_compute in (delete_unremoved "x" x_db).1.
Definition stuck_back : db := Eval vm_compute in val_db (db_open (db_disk stuck_db)).
Theorem C98_failed_removal_refuted : exists l D D1 D', 
  khist no_embed ex_json 65536 2 50 fresh_db l D /\ names_ok l /\ delete_unremoved "x" D = (D1, Err EIO) /\
  delete_collection "x" D1 = (D1, Err EMetaMissing) /\ (exists h, names_to D1 "x" h) /\
  db_open (db_disk (db_close D1).1) = Val D' /\ (forall h, ~ names_to D' "x" h) /\
  exists D2, create_collection (ok_cfg "x" []) D' = (D2, Err EExist).
Proof.
  exists (KDo <$> x_evs), x_db, stuck_db, stuck_back. split; [apply x_khist|]. split; [apply x_names_ok|]. split; [vm_compute; reflexivity|].
  split; [vm_compute; reflexivity|]. split; [exists (Handle (ok_cfg "x" []) (nth_st 0 x_db)); exists 0; split; vm_compute; reflexivity|].
  split; [rewrite close_disk; vm_compute; reflexivity|]. split; [intros h (i & Hi & _); vm_compute in Hi; done|].
  exists (create_collection (ok_cfg "x" []) stuck_back).1. vm_compute. reflexivity.
Qed.
Print Assumptions C98_failed_removal_refuted.
Example C98_case : delete_unremoved "x" x_db = (stuck_db, Err EIO) /\
  exists l D2, dhist no_embed ex_json 65536 2 50 stuck_db l D2 /\ Forall (fun v => ~ is_reopen v) l /\ length l = 1.
Proof.
  split; [vm_compute; reflexivity|]. exists [VGet "x" (Val 0)], stuck_db. split; [|split; [|done]].
  - change [VGet "x" (Val 0)] with ([] ++ [VGet "x" (Val 0)]). econstructor; [constructor|]. constructor. vm_compute. reflexivity.
  - apply Forall_singleton. by intros H.
Qed.
