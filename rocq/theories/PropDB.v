(** Collections of a database: names, closing, reopening, deleting and
    recreating (C40-C46), the REST answers (C47, C48) and validation (C49). *)
From stdpp Require Import relations.
From Verif Require Import GoBase FloatModel ProgModel StateModel WalModel HnswModel StoreModel CollModel CallModel DBModel.
From Verif Require Import ProofBase WpProofs CallProofs HistProofs WalProofs StoreView RestoreProofs IndexHist CollWf HistRun PropStore PropIndex PropRestore DBProofs.
From Coq Require Import Ascii.
Open Scope nat_scope.

(** ** Specifications *)

(** The configurations the documentation allows. *)
Definition documented (c : config) : Prop :=
  cf_name c <> ""%string /\
  (cf_index c = "disk_ann"%string \/
   cf_index c = "hnsw"%string /\ exists r, cf_params c = IPOk r /\
     (0 < r_m r)%Z /\ (0 < r_mmax r)%Z /\ (0 < r_efc r)%Z /\ (0 < r_ef r)%Z /\
     (r_dist r = "dot_product"%string \/ r_dist r = "euclidean_distance"%string)) /\
  (cf_embedder c = ""%string \/ cf_embedder c = "text2vec-huggingface"%string \/ cf_embedder c = "fake_embedder"%string) /\
  cf_data c = "text"%string.

(** An HNSW collection whose name is an ordinary file name and whose embedder
    configuration is a JSON object (or absent). *)
Record plain (c : config) : Prop := Plain {
  pl_index : cf_index c = "hnsw"%string;
  pl_slash : ~ In "/"%char (list_ascii_of_string (cf_name c));
  pl_dot : cf_name c <> "."%string;
  pl_dots : cf_name c <> ".."%string;
  pl_meta : cf_name c <> "metadata.db"%string;
  pl_emb : cf_embcfg c = JNull \/ exists l, cf_embcfg c = JObj l
}.

(** What a caller sees of a database: the collection a name stands for. *)
Definition names_to (D : db) (n : string) (h : handle) : Prop :=
  exists i, get_collection n D = Val i /\ db_handles D !! i = Some h.

(** A database that has just been opened in an empty directory. *)
Definition fresh_db : db := DB [] 1 {[ "metadata.db"%string := FFile ]} ∅ [] false.
Example fresh_db_opens : db_open fresh_ddisk = Val fresh_db.
Proof. done. Qed.

Section hist.
  Context (env_embed : string -> jval -> embedder) (J : json) (maxv : N) (workers fuel : nat).
  Notation params c := (cparams_of env_embed J maxv workers fuel c).

  (** What may happen to a database; [VUse i] is a call on the [i]-th handle
      that was ever given out, [VReopen] is Close followed by Open. *)
  Inductive dev :=
  | VCreate (c : config) (r : out nat)
  | VDelete (n : string) (r : out unit)
  | VGet (n : string) (r : out nat)
  | VUse (i : nat) (c : call) (r : reply)
  | VReopen.
  Inductive dstep (D : db) : dev -> db -> Prop :=
  | StCreate c D' r : create_collection c D = (D', r) -> dstep D (VCreate c r) D'
  | StDelete n D' r : delete_collection n D = (D', r) -> dstep D (VDelete n r) D'
  | StGet n r : get_collection n D = r -> dstep D (VGet n r) D
  | StUse i h C c s' r :
      db_handles D !! i = Some h -> params (hd_cfg h) = Some C -> call_run C (hd_st h) c s' r ->
      dstep D (VUse i c r) (DB (db_rows D) (db_next D) (db_files D) (db_colls D)
                              (<[i := Handle (hd_cfg h) s']> (db_handles D)) (db_closed D))
  | StReopen D' : db_open (db_disk (db_close D).1) = Val D' -> dstep D VReopen D'.
  Inductive dhist (D : db) : list dev -> db -> Prop :=
  | DNil : dhist D [] D
  | DSnoc l e D1 D2 : dhist D l D1 -> dstep D1 e D2 -> dhist D (l ++ [e]) D2.

  (** The collections that exist after the events: the configuration each was
      created with. *)
  Definition created_step (m : gmap string config) (e : dev) : gmap string config :=
    match e with
    | VCreate c (Val _) => <[cf_name c := c]> m
    | VDelete n (Val _) => delete n m
    | _ => m
    end.
  Definition created (l : list dev) : gmap string config := foldl created_step ∅ l.
  Lemma created_snoc l e : created (l ++ [e]) = created_step (created l) e.
  Proof using. unfold created. by rewrite foldl_app. Qed.

  Definition is_reopen (e : dev) : Prop := match e with VReopen => True | _ => False end.
  Definition plain_ev (e : dev) : Prop := match e with VCreate c _ => plain c | _ => True end.

  (** ** C49: what validation accepts *)
  Lemma validate_spec c : validate c = Val tt <-> documented c.
  Proof using.
    clear. unfold validate, documented. destruct (String.eqb_spec (cf_name c) "") as [En|En]; [split; [done|by intros []]|].
    assert (Hh : validate_hnsw (cf_params c) = Val tt <-> exists r, cf_params c = IPOk r /\
       (0 < r_m r)%Z /\ (0 < r_mmax r)%Z /\ (0 < r_efc r)%Z /\ (0 < r_ef r)%Z /\
       (r_dist r = "dot_product"%string \/ r_dist r = "euclidean_distance"%string)).
    { unfold validate_hnsw. destruct (cf_params c) as [| |r]; [split; [done|by intros (r & ? & _)]..|]. split.
      - repeat (case_match; [done|]). repeat match goal with H : (_ <=? 0)%Z = false |- _ => apply Z.leb_gt in H end.
        unfold dist_of_name. destruct (String.eqb_spec (r_dist r) "dot_product"); [intros _; exists r; split_and!; auto|].
        destruct (String.eqb_spec (r_dist r) "euclidean_distance"); [intros _; exists r; split_and!; auto|done].
      - intros (r' & [= <-] & H1 & H2 & H3 & H4 & H5). repeat (case_match; [exfalso; repeat match goal with H : (_ <=? 0)%Z = true |- _ => apply Z.leb_le in H end; lia|]).
        unfold dist_of_name. by destruct H5 as [-> | ->]. }
    assert (He : (String.eqb (cf_embedder c) "" || String.eqb (cf_embedder c) "text2vec-huggingface" || String.eqb (cf_embedder c) "fake_embedder") = true <->
      (cf_embedder c = ""%string \/ cf_embedder c = "text2vec-huggingface"%string \/ cf_embedder c = "fake_embedder"%string)).
    { rewrite !orb_true_iff, !String.eqb_eq. tauto. }
    assert (Hr : (if String.eqb (cf_embedder c) "" || String.eqb (cf_embedder c) "text2vec-huggingface" || String.eqb (cf_embedder c) "fake_embedder"
       then if String.eqb (cf_data c) "text" then Val tt else Err EDataType else Err EEmbedderType) = Val tt <->
       (cf_embedder c = ""%string \/ cf_embedder c = "text2vec-huggingface"%string \/ cf_embedder c = "fake_embedder"%string) /\ cf_data c = "text"%string).
    { rewrite <- He. destruct (_ || _ || _); [|split; [done|by intros []]]. destruct (String.eqb_spec (cf_data c) "text"); split; naive_solver. }
    destruct (String.eqb_spec (cf_index c) "hnsw") as [Ei|Ei].
    - rewrite Ei. destruct (validate_hnsw (cf_params c)) as [[]|e|p]; cbn [mbind out_bind].
      + rewrite Hr. destruct Hh as [Hh _]. specialize (Hh eq_refl). split; [intros [? ?]; by auto|by intros (_ & _ & ? & ?)].
      + split; [done|]. intros (_ & [?|[_ H]] & _); [done|]. by apply Hh in H.
      + split; [done|]. intros (_ & [?|[_ H]] & _); [done|]. by apply Hh in H.
    - destruct (String.eqb_spec (cf_index c) "disk_ann") as [Ed|Ed]; cbn [mbind out_bind]; [|split; naive_solver].
      rewrite Hr. naive_solver.
  Qed.

  (** ** Which creations succeed *)
  Lemma plain_mkdir c fs : plain c -> fs !! cf_name c = None -> mkdir (cf_name c) fs = Val (<[cf_name c := FDir empty_disk]> fs).
  Proof using.
    clear. intros [? Hs Hd Hdd Hm He] Hf. unfold mkdir. apply has_slash_spec in Hs. rewrite Hs.
    apply String.eqb_neq in Hd, Hdd. by rewrite Hd, Hdd, Hf.
  Qed.
  Lemma create_ok c D : plain c -> validate c = Val tt -> db_closed D = false -> db_colls D !! cf_name c = None ->
    cf_name c ∉ names (db_rows D) -> db_files D !! cf_name c = None -> exists D', create_collection c D = (D', Val (length (db_handles D))).
  Proof using.
    clear. intros Hp Hv Hcl Hc Hr Hf. unfold create_collection. rewrite Hcl, Hv, Hc. unfold meta_create.
    assert (He : negb (is_object (cf_embcfg c)) = false) by (by destruct (pl_emb _ Hp) as [-> | [l ->]]).
    assert (exists r, cf_params c = IPOk r) as [r Er].
    { apply validate_spec in Hv as (_ & [Hi|(_ & r & Hr2 & _)] & _); [|by exists r]. by rewrite (pl_index _ Hp) in Hi. }
    rewrite Er, He. apply existsb_names_false in Hr. rewrite Hr, plain_mkdir by done. cbn [db_files].
    rewrite lookup_insert. erewrite (new_collection_ok c empty_disk empty_st); [by eexists|apply Hp|apply reopen_empty].
  Qed.

  (** ** Every reachable database *)
  Lemma dhist_idx D l D' : dhist D l D' -> (forall n i, db_colls D !! n = Some i -> i < length (db_handles D)) -> NoDup (names (db_rows D)) ->
    (forall n i, db_colls D' !! n = Some i -> i < length (db_handles D')) /\ NoDup (names (db_rows D')).
  Proof using.
    intros H Hd Hn. induction H as [|l e D1 D2 H IH Hs]; [done|]. destruct IH as [IH1 IH2].
    inversion Hs as [c D3 r Hc|n D3 r Hc|n r Hc|i h C c s' r Hi Hp Hr|D3 Ho]; subst.
    - destruct r as [i|e|p].
      + apply create_val in Hc as (_ & _ & _ & Hr & _ & _ & -> & ->). cbn. split.
        * intros n i. rewrite app_length. cbn. destruct (decide (n = cf_name c)) as [->|Hne]; [rewrite lookup_insert; intros [= <-]; lia|].
          rewrite lookup_insert_ne by done. intros Hi%IH1. lia.
        * unfold names. rewrite fmap_app. apply NoDup_app. split_and!; [done| |apply NoDup_singleton].
          intros x Hx. cbn. rewrite elem_of_list_singleton. by intros ->.
      + apply create_fail in Hc as (_ & -> & -> & _ & Hx); [|done]. split; [done|]. destruct Hx as [->|[-> Hx]]; [done|].
        unfold names. rewrite fmap_app. apply NoDup_app. split_and!; [done| |apply NoDup_singleton].
        intros x Hx2. cbn. rewrite elem_of_list_singleton. by intros ->.
      + by apply create_fail in Hc as ([e [=]] & _).
    - destruct r as [[]|e|p].
      + apply delete_val in Hc as (_ & _ & _ & ->). cbn. split; [|by apply NoDup_filter_rows]. intros n' i Hi.
        apply lookup_delete_Some in Hi as [_ Hi]. by eapply IH1.
      + by apply delete_fail in Hc as [-> _].
      + by apply delete_fail in Hc as [-> _].
    - done.
    - cbn. rewrite insert_length. done.
    - unfold db_open in Ho. destruct (open_rows_val _ _ _ IH2 Ho) as (H1 & H2 & H3 & _ & _ & _). cbn in *. rewrite H1. split; [|done].
      intros n i Hi. destruct (decide (n ∈ names (db_rows D1))) as [Hin|Hin].
      + apply elem_of_list_fmap in Hin as (r & -> & Hr). destruct (H2 r Hr) as (i2 & s & E1 & E2 & _). rewrite Hi in E1. injection E1 as ->.
        by apply lookup_lt_Some in E2.
      + destruct (H3 n Hin) as [E _]. rewrite Hi in E. by rewrite lookup_empty in E.
  Qed.
  Lemma fresh_idx l D : dhist fresh_db l D -> (forall n i, db_colls D !! n = Some i -> i < length (db_handles D)) /\ NoDup (names (db_rows D)).
  Proof using. intros H. eapply dhist_idx; [done|done|apply NoDup_nil_2]. Qed.

  (** ** Reachable databases without special names *)
  Record PI (D : db) (m : gmap string config) : Prop := MkPI {
    pi_open : db_closed D = false;
    pi_files : forall n, is_Some (db_files D !! n) -> n = "metadata.db"%string;
    pi_nodup : NoDup (names (db_rows D));
    pi_rows : forall r, r ∈ db_rows D -> exists c, m !! cf_name (row_cfg r) = Some c /\ row_cfg r = stored c;
    pi_map : forall n c, m !! n = Some c -> cf_name c = n /\ plain c /\ validate c = Val tt /\ n ∈ names (db_rows D) /\
      exists i h, db_colls D !! n = Some i /\ db_handles D !! i = Some h /\ (hd_cfg h = c \/ hd_cfg h = reloaded c);
    pi_dom : forall n i, db_colls D !! n = Some i -> is_Some (m !! n)
  }.
  Lemma PI_fresh : PI fresh_db ∅.
  Proof using.
    clear. split; cbn; try done; [|apply NoDup_nil_2|intros r Hr; by apply elem_of_nil in Hr].
    intros n [x Hx]. by apply lookup_singleton_Some in Hx as [<- _].
  Qed.
  Lemma PI_step D m e D' : PI D m -> plain_ev e -> dstep D e D' -> PI D' (created_step m e).
  Proof using.
    intros [Hop Hfi Hnd Hro Hma Hdo] Hpl Hs.
    assert (HP : PI D m) by done.
    inversion Hs as [c D3 r Hc|n D3 r Hc|n r Hc|i h C c s' r Hi Hp Hr|D3 Ho]; subst; cbn [created_step plain_ev] in *.
    - destruct r as [i|e|p].
      + apply create_val in Hc as (_ & Hv & Hcn & Hr & _ & Hf & -> & ->). split; cbn [db_closed db_files db_rows db_colls db_handles]; try done.
        * unfold names. rewrite fmap_app. apply NoDup_app. split_and!; [done| |apply NoDup_singleton].
          intros x Hx. cbn. rewrite elem_of_list_singleton. by intros ->.
        * intros r [Hin|Hin]%elem_of_app.
          -- destruct (Hro r Hin) as (c2 & H1 & H2). exists c2. split; [|done]. rewrite lookup_insert_ne; [done|].
             intros E. apply Hr. rewrite E. apply elem_of_list_fmap. by exists r.
          -- apply elem_of_list_singleton in Hin as ->. exists c. split; [|done]. by rewrite lookup_insert.
        * intros n c2 [[<- <-]|[Hne H2]]%lookup_insert_Some.
          -- split_and!; try done; [unfold names; rewrite fmap_app; apply elem_of_app; right; by apply elem_of_list_singleton|].
             exists (length (db_handles D)), (Handle c empty_st). rewrite lookup_insert. split_and!; [done| |by left].
             by rewrite lookup_app_r, Nat.sub_diag by lia.
          -- destruct (Hma n c2 H2) as (E1 & E2 & E3 & E4 & i & h & E5 & E6 & E7). split_and!; try done; [unfold names; rewrite fmap_app; apply elem_of_app; by left|].
             exists i, h. rewrite lookup_insert_ne by done. split_and!; [done| |done]. by apply lookup_app_l_Some.
        * intros n i [[<- <-]|[Hne H2]]%lookup_insert_Some; [rewrite lookup_insert; by eexists|]. rewrite lookup_insert_ne by done. by eapply Hdo.
      + pose proof Hc as Hc2. apply create_fail in Hc2 as (_ & _ & _ & _ & Hx); [|done]. destruct Hx as [->|[Hrw Hx]]; [done|].
        exfalso. destruct (db_colls D !! cf_name c) as [j|] eqn:Ec.
        { destruct (Hdo _ _ Ec) as [c2 Hc2]. destruct (Hma _ _ Hc2) as (_ & _ & _ & Hin & _). done. }
        destruct (validate c) as [[]|e2|p2] eqn:Ev.
        * destruct (create_ok c D Hpl Ev Hop Ec Hx) as [D4 E4]; [|by rewrite Hc in E4].
          destruct (db_files D !! cf_name c) eqn:Ef; [|done]. destruct (pl_meta _ Hpl). apply Hfi. by rewrite Ef.
        * unfold create_collection in Hc. rewrite Hop, Ev in Hc. injection Hc as <- <-.
          apply (f_equal length) in Hrw. rewrite app_length in Hrw. cbn in Hrw. lia.
        * by apply validate_no_pan in Ev.
      + by apply create_fail in Hc as ([e [=]] & _).
    - destruct r as [[]|e|p].
      + apply delete_val in Hc as (_ & _ & _ & ->). split; cbn [db_closed db_files db_rows db_colls db_handles]; try done.
        * intros n2 [x [_ Hx]%lookup_delete_Some]. apply Hfi. by eexists.
        * by apply NoDup_filter_rows.
        * intros r [Hr Hne]%elem_filter_rows. destruct (Hro r Hr) as (c & H1 & H2). exists c. by rewrite lookup_delete_ne.
        * intros n2 c [Hne H2]%lookup_delete_Some. destruct (Hma n2 c H2) as (E1 & E2 & E3 & E4 & i & h & E5 & E6 & E7).
          split_and!; try done; [by apply names_filter|]. exists i, h. by rewrite lookup_delete_ne.
        * intros n2 i [Hne H2]%lookup_delete_Some. rewrite lookup_delete_ne by done. by eapply Hdo.
      + by apply delete_fail in Hc as [-> _].
      + by apply delete_fail in Hc as [-> _].
    - done.
    - split; cbn [db_closed db_files db_rows db_colls db_handles]; try done. intros n c2 H2.
      destruct (Hma n c2 H2) as (E1 & E2 & E3 & E4 & j & h2 & E5 & E6 & E7). split_and!; try done.
      destruct (decide (i = j)) as [<-|Hne].
      + exists i, (Handle (hd_cfg h) s'). rewrite Hi in E6. injection E6 as <-. split_and!; [done| |done]. apply list_lookup_insert. by eapply lookup_lt_Some.
      + exists j, h2. by rewrite list_lookup_insert_ne.
    - rewrite close_disk in Ho. unfold db_open in Ho. destruct (open_rows_val _ _ _ Hnd Ho) as (H1 & H2 & H3 & H4 & H5 & H6).
      cbn [db_disk dd_rows dd_next db_rows db_colls db_files db_handles db_closed] in *. split; try rewrite H1; try done.
      + by apply H6.
      + intros n [x Hx]. destruct (decide (n ∈ names (db_rows D))) as [Hin|Hin]; [by rewrite (H4 n Hin) in Hx|].
        destruct (H3 n Hin) as [_ E]. rewrite E, disk_files in Hx. destruct (db_colls D !! n) as [i|] eqn:Ec; cbn in Hx; [|apply Hfi; by eexists].
        destruct (Hdo _ _ Ec) as [c Hc]. by destruct (Hma _ _ Hc) as (_ & _ & _ & Hin2 & _).
      + intros n c Hn. destruct (Hma n c Hn) as (E1 & E2 & E3 & E4 & i & h & E5 & E6 & E7). split_and!; try done.
        apply elem_of_list_fmap in E4 as (r & -> & Hr). destruct (H2 r Hr) as (i2 & s & F1 & F2 & _). exists i2, (Handle (row_config r) s).
        split_and!; [done..|]. right. cbn. destruct (Hro r Hr) as (c2 & G1 & G2). rewrite Hn in G1. injection G1 as <-. unfold row_config. by rewrite G2.
      + intros n i Hi. destruct (decide (n ∈ names (db_rows D))) as [Hin|Hin].
        * apply elem_of_list_fmap in Hin as (r & -> & Hr). destruct (Hro r Hr) as (c2 & G1 & G2). by eexists.
        * destruct (H3 n Hin) as [E _]. rewrite Hi in E. by rewrite lookup_empty in E.
  Qed.
  Lemma plain_hist l D : dhist fresh_db l D -> Forall plain_ev l -> PI D (created l).
  Proof using.
    intros H. induction H as [|l e D1 D2 H IH Hs]; intros Hf; [apply PI_fresh|]. rewrite created_snoc.
    apply Forall_app in Hf as [Hf He]. apply Forall_cons in He as [He _]. eapply PI_step; eauto.
  Qed.

  (** ** Databases that are used calmly: every collection is plain and calls
      are made one after the other, on a disk that accepts every write, without
      panics; configurations have no huge numbers. *)
  Definition faithful (c : config) : Prop :=
    forall r, cf_params c = IPOk r ->
      (r_m r < 2 ^ 53)%Z /\ (r_mmax r < 2 ^ 53)%Z /\ (r_efc r < 2 ^ 53)%Z /\ (r_ef r < 2 ^ 53)%Z.
  Definition ev_calm (D : db) (e : dev) (D' : db) : Prop :=
    match e with
    | VCreate c _ => plain c /\ faithful c /\ forall C, params c = Some C -> sizes_ok C
    | VUse i c r => forall h C h', db_handles D !! i = Some h -> params (hd_cfg h) = Some C -> db_handles D' !! i = Some h' ->
        quiet C (EvCall c r) /\ (N.of_nat (length (log_view (hd_st h'))) + 1 < 2 ^ 64)%N
    | _ => True
    end.
  Inductive calm (D : db) : list dev -> db -> Prop :=
  | CalmNil : calm D [] D
  | CalmSnoc l e D1 D2 : calm D l D1 -> dstep D1 e D2 -> ev_calm D1 e D2 -> calm D (l ++ [e]) D2.
  Definition d_inserts (l : list dev) : nat :=
    sum_list ((fun e => match e with VUse _ c _ => length (submitted c) | _ => 0 end) <$> l).
  Lemma d_inserts_snoc l e : d_inserts (l ++ [e]) = d_inserts l + match e with VUse _ c _ => length (submitted c) | _ => 0 end.
  Proof using. clear. unfold d_inserts. rewrite fmap_app. induction l as [|x l IH]; cbn in *; [lia|]. rewrite IH. lia. Qed.

  Lemma calm_dhist D l D' : calm D l D' -> dhist D l D' /\ Forall plain_ev l.
  Proof using.
    induction 1 as [|l e D1 D2 H [IH1 IH2] Hs Hc]; [split; constructor|]. split; [by econstructor|].
    apply Forall_app. split; [done|]. apply Forall_singleton. destruct e; cbn in *; tauto.
  Qed.
  Lemma faithful_stored c : faithful c -> validate c = Val tt -> cf_index c = "hnsw"%string -> params_stored (cf_params c) = cf_params c.
  Proof using.
    clear. intros Hf Hv Hi. apply validate_spec in Hv as (_ & [Hd|(_ & r & Er & H1 & H2 & H3 & H4 & _)] & _); [by rewrite Hi in Hd|].
    destruct (Hf r Er) as (F1 & F2 & F3 & F4). rewrite Er. cbn. unfold raw_stored. rewrite !f64_int_exact by lia. by destruct r.
  Qed.

  (** The state of the collection behind a handle. *)
  Definition traced (k : nat) (h : handle) : Prop :=
    exists C, params (hd_cfg h) = Some C /\ sizes_ok C /\ SInv (hd_st h) /\ QInv C (hd_st h) /\ batch (hd_st h) = [] /\ (cnt (hd_st h) <= N.of_nat k)%N.
  Lemma traced_mono k1 k2 h : k1 <= k2 -> traced k1 h -> traced k2 h.
  Proof using. intros Hk (C & ? & ? & ? & ? & ? & ?). exists C. split_and!; try done. lia. Qed.
  Lemma traced_cfg k c c' s : cf_params c' = cf_params c -> traced k (Handle c s) -> traced k (Handle c' s).
  Proof using.
    intros Hc (C & HC & Hsz & HI & HQ & Hb & Hn). unfold traced. cbn [hd_cfg hd_st] in *. unfold cparams_of in *. rewrite Hc.
    destruct (cf_params c) as [| |r]; [done..|]. injection HC as <-. eexists. split; [done|]. split; [done|]. split; [done|]. split; [|done].
    destruct HQ as [H1 H2 H3 H4 H5 H6]. by split.
  Qed.
  Lemma traced_reopens k h : (N.of_nat k < 2 ^ 64)%N -> traced k h -> exists s', reopen (disk_of (hd_st h)) = Val s' /\ traced k (Handle (hd_cfg h) s') /\
    objs s' = objs (hd_st h) /\ vecs s' = vecs (hd_st h) /\ cnt s' = cnt (hd_st h) /\
    nodes s' = nodes (hd_st h) /\ ep s' = ep (hd_st h) /\ maxl s' = maxl (hd_st h) /\ deleted s' = deleted (hd_st h).
  Proof using.
    intros Hk (C & HC & Hsz & HI & HQ & Hb & Hn).
    destruct (reopen_restores _ _ (QInv_restorable _ _ HQ Hb) (si_file _ HI)) as (s' & Hr & E1 & E2 & E3 & E4 & E5).
    destruct (Q_restart C _ _ HI HQ Hb Hr) as (HQ' & Hb' & _).
    destruct (reopen_store _ _ Hr) as (R1&R2&R3&R4&R5&R6&R7&R8&R9). cbn in R1, R2, R3, R4.
    assert (cnt s' = cnt (hd_st h)) as Ec by (rewrite R2, (si_file _ HI) in R1; by apply Val_inj in R1).
    exists s'. split; [done|]. split; [|done]. exists C. cbn [hd_cfg hd_st]. split_and!; try done; [|by rewrite Ec].
    destruct (hist_store C (hd_st h) [EvRestart] s' HI) as [HI' _]; [|change [EvRestart] with ([] ++ [EvRestart]); econstructor; [constructor|by constructor]|done].
    change (hist_inserts [EvRestart]) with 0. lia.
  Qed.

  Lemma calm_inv l D : calm fresh_db l D -> (N.of_nat (d_inserts l) < 2 ^ 64)%N ->
    PI D (created l) /\ (forall n c, created l !! n = Some c -> faithful c) /\
    (forall n i h, db_colls D !! n = Some i -> db_handles D !! i = Some h -> traced (d_inserts l) h).
  Proof using.
    intros H. induction H as [|l e D1 D2 H IH Hs Hc]; intros Hn.
    { split_and!; [apply PI_fresh|done|done]. }
    rewrite d_inserts_snoc in Hn. destruct IH as (HPI & HF & HT); [lia|].
    destruct (calm_dhist _ _ _ H) as [Hd Hpl].
    assert (HPI2 : PI D2 (created (l ++ [e]))).
    { rewrite created_snoc. eapply PI_step; [done| |done]. destruct e; cbn in *; tauto. }
    split; [done|]. rewrite created_snoc in *.
    assert (HF2 : forall n c, created_step (created l) e !! n = Some c -> faithful c).
    { intros n c. destruct e as [c0 [i|?|?]|n0 [[]|?|?]|n0 r|i c0 r|]; cbn; try apply HF.
      - intros [[<- <-]|[_ H2]]%lookup_insert_Some; [apply Hc|by eapply HF].
      - intros [_ H2]%lookup_delete_Some. by eapply HF. }
    split; [done|]. intros n i h Hi Hh.
    assert (Hmono : forall h, traced (d_inserts l) h -> traced (d_inserts (l ++ [e])) h).
    { intros h0. apply traced_mono. rewrite d_inserts_snoc. lia. }
    inversion Hs as [c D3 r Hcr|n1 D3 r Hcr|n1 r Hcr|i1 h1 C c s' r Hi1 Hp Hr|D3 Ho]; subst.
    - destruct r as [j|e|p].
      + apply create_val in Hcr as (_ & Hv & _ & _ & _ & _ & -> & ->). cbn [db_colls db_handles] in *.
        apply lookup_insert_Some in Hi as [[<- <-]|[Hne Hi]].
        * rewrite lookup_app_r, Nat.sub_diag in Hh by lia. injection Hh as <-.
          destruct Hc as (Hpc & _ & Hsz). apply validate_spec in Hv as (_ & [Hx|(_ & r & Er & _)] & _); [by rewrite (pl_index _ Hpc) in Hx|].
          unfold cparams_of in Hsz. rewrite Er in Hsz. unfold traced. cbn [hd_cfg hd_st]. unfold cparams_of. rewrite Er.
          eexists. split; [done|]. split; [by apply Hsz|]. split; [apply SInv_empty|]. split; [apply QInv_empty|]. split; [done|cbn; lia].
        * destruct HPI as [_ _ _ _ Hma Hdo]. destruct (Hdo _ _ Hi) as [c2 Hc2]. destruct (Hma _ _ Hc2) as (_ & _ & _ & _ & i2 & h2 & E1 & E2 & _).
          rewrite Hi in E1. injection E1 as <-. rewrite lookup_app_l in Hh by (by eapply lookup_lt_Some). apply Hmono. by eapply HT.
      + apply create_fail in Hcr as (_ & E1 & E2 & _ & _); [|done]. rewrite E1 in Hi. rewrite E2 in Hh. apply Hmono. by eapply HT.
      + by apply create_fail in Hcr as ([e [=]] & _).
    - destruct r as [[]|e|p].
      + apply delete_val in Hcr as (_ & _ & _ & ->). cbn [db_colls db_handles] in *. apply lookup_delete_Some in Hi as [_ Hi]. apply Hmono. by eapply HT.
      + apply delete_fail in Hcr as [-> _]; [|done]. apply Hmono. by eapply HT.
      + apply delete_fail in Hcr as [-> _]; [|done]. apply Hmono. by eapply HT.
    - apply Hmono. by eapply HT.
    - cbn [db_colls db_handles ev_calm] in *. destruct (decide (i1 = i)) as [->|Hne]; [|rewrite list_lookup_insert_ne in Hh by done; apply Hmono; by eapply HT].
      rewrite list_lookup_insert in Hh by (by eapply lookup_lt_Some). injection Hh as <-.
      destruct (Hc h1 C (Handle (hd_cfg h1) s') Hi1 Hp) as [Hq Hlog]; [apply list_lookup_insert; by eapply lookup_lt_Some|]. cbn [hd_st] in Hlog.
      destruct (HT _ _ _ Hi Hi1) as (C2 & HC & Hsz & HI & HQ & Hb & Hns). rewrite Hp in HC. injection HC as <-.
      exists C. cbn [hd_cfg hd_st].
      assert (Hst : ev_step C (hd_st h1) (EvCall c r) s') by (by constructor).
      destruct (hist_store C (hd_st h1) [EvCall c r] s' HI) as [HI' Hc'].
      { unfold hist_inserts. cbn. lia. }
      { change [EvCall c r] with ([] ++ [EvCall c r]). econstructor; [constructor|done]. }
      destruct Hsz as [Hmx Hdg].
      destruct (Q_step C Hmx Hdg (hd_st h1) (EvCall c r) s') as [HQ' Hb']; try done; [lia|].
      split_and!; try done. unfold hist_inserts in Hc'. cbn in Hc'. rewrite d_inserts_snoc. lia.
    - pose proof HPI as [Hop Hfi Hnd Hro Hma Hdo]. rewrite close_disk in Ho. unfold db_open in Ho.
      destruct (open_rows_val _ _ _ Hnd Ho) as (H1 & H2 & H3 & H4 & H5 & H6).
      cbn [db_disk dd_rows dd_next db_rows db_colls db_files db_handles db_closed] in *.
      destruct (decide (n ∈ names (db_rows D1))) as [Hin|Hin].
      2:{ destruct (H3 n Hin) as [E _]. rewrite Hi in E. by rewrite lookup_empty in E. }
      apply elem_of_list_fmap in Hin as (r & -> & Hr). destruct (H2 r Hr) as (i2 & s & F1 & F2 & F3).
      rewrite F1 in Hi. injection Hi as ->. rewrite F2 in Hh. injection Hh as <-.
      destruct (Hro r Hr) as (c & G1 & G2). destruct (Hma _ _ G1) as (_ & Hpc & Hv & _ & i3 & h3 & K1 & K2 & K3).
      pose proof (faithful_stored c (HF _ _ G1) Hv (pl_index _ Hpc)) as Efc.
      destruct (traced_reopens (d_inserts l) h3 ltac:(lia) (HT _ _ _ K1 K2)) as (s' & Hre & Htr & _).
      rewrite disk_files, K1 in F3. cbn [mbind option_bind] in F3. rewrite K2 in F3.
      apply new_collection_val in F3 as (_ & _ & s2 & Hs2 & [= ->]). rewrite Hre in Hs2. apply Val_inj in Hs2 as <-.
      apply Hmono. eapply traced_cfg; [|exact Htr]. unfold row_config. rewrite G2. cbn. by destruct K3 as [-> | ->].
  Qed.

  (** ** C40 A closed database refuses every operation *)
  Theorem C40_closed_database_refuses : forall D, db_closed D = true ->
    (forall c, create_collection c D = (D, Err EDatabaseClosed)) /\
    (forall n, delete_collection n D = (D, Err EDatabaseClosed)) /\
    (forall n, get_collection n D = Err EDatabaseClosed).
  Proof using.
    clear. intros D H. unfold create_collection, delete_collection, get_collection. by rewrite H.
  Qed.
  Theorem C40_close_closes_everything : forall D,
    (db_close D).2 = Val tt /\ db_closed (db_close D).1 = true /\
    (forall n i, db_colls D !! n = Some i -> forall h, db_handles (db_close D).1 !! i = Some h -> closed (hd_st h) = true) /\
    (forall i h, db_handles D !! i = Some h -> exists h', db_handles (db_close D).1 !! i = Some h' /\ hd_cfg h' = hd_cfg h /\ disk_of (hd_st h') = disk_of (hd_st h)) /\
    db_disk (db_close D).1 = db_disk D /\
    db_close (db_close D).1 = db_close D.
  Proof using.
    clear. intros D. split_and!; try done.
    - intros n i Hn h Hh. cbn [db_close fst db_handles] in Hh. rewrite list_lookup_imap in Hh.
      assert (i ∈ (map_to_list (db_colls D)).*2) as Hi.
      { apply elem_of_list_fmap. exists (n, i). split; [done|]. by apply elem_of_map_to_list. }
      rewrite bool_decide_true in Hh by done. destruct (db_handles D !! i); [|done]. cbn in Hh. by injection Hh as <-.
    - intros i h Hh. destruct (close_lookup D i) as (f & Hf & ->). rewrite Hh. exists (f h). split; [done|]. by destruct (Hf h) as [-> | ->].
    - apply close_disk.
    - unfold db_close at 1 3. cbn [fst db_handles db_colls db_rows db_next db_files]. f_equal. f_equal.
      apply list_eq. intros i. rewrite !list_lookup_imap. cbn [db_close fst db_handles db_colls]. rewrite list_lookup_imap. destruct (db_handles D !! i) as [h|]; [|done]. cbn. by destruct (bool_decide _).
  Qed.

  (** ** C41 Collections behave like a map from names *)
  (** Without reopening, for every history whatever was tried: a name stands
      for a collection exactly if its last acknowledged creation has not been
      followed by an acknowledged deletion. *)
  Theorem C41_names_resolve : forall l D, dhist fresh_db l D -> Forall (fun e => ~ is_reopen e) l ->
    forall n, (exists h, names_to D n h) <-> is_Some (created l !! n).
  Proof using.
    intros l D H Hf.
    assert (db_closed D = false /\ forall n, is_Some (db_colls D !! n) <-> is_Some (created l !! n)) as [Hop HD].
    { induction H as [|l e D1 D2 H IH Hs]; [split; [done|]; intros n; unfold created; cbn [fresh_db db_colls foldl]; rewrite !lookup_empty; split; by intros [? [=]]|]. apply Forall_app in Hf as [Hf He]. apply Forall_cons in He as [He _]. destruct (IH Hf) as [Hop HD].
      rewrite created_snoc. inversion Hs as [c D3 r Hc|n D3 r Hc|n r Hc|i h C c s' r Hi Hp Hr|D3 Ho]; subst; cbn [created_step].
      - destruct r as [i|e|p].
        + apply create_val in Hc as (_ & _ & _ & _ & _ & _ & _ & ->). split; [done|]. intros n. cbn. rewrite !lookup_insert_is_Some. by rewrite HD.
        + apply create_fail in Hc as (_ & E1 & _ & E2 & _); [|done]. by rewrite E1, E2.
        + by apply create_fail in Hc as ([e [=]] & _).
      - destruct r as [[]|e|p].
        + apply delete_val in Hc as (_ & _ & _ & ->). split; [done|]. intros m. cbn. rewrite !lookup_delete_is_Some. by rewrite HD.
        + by apply delete_fail in Hc as [-> _].
        + by apply delete_fail in Hc as [-> _].
      - done.
      - done.
      - by destruct He. }
    intros n. rewrite <- HD. unfold names_to, get_collection. rewrite Hop. destruct (fresh_idx _ _ H) as [Hidx _]. split.
    - intros (h & i & Hi & _). destruct (db_colls D !! n); [by eexists|done].
    - intros [i Hi]. rewrite Hi. destruct (lookup_lt_is_Some_2 (db_handles D) i (Hidx _ _ Hi)) as [h Hh]. by exists h, i.
  Qed.

  (** Creating an existing name and deleting a missing one fail and change
      nothing, in every state. *)
  Theorem C41_refused_changes_nothing : forall D n,
    (forall c h, names_to D (cf_name c) h -> exists e, create_collection c D = (D, Err e)) /\
    ((forall h, ~ names_to D n h) -> (forall i, db_colls D !! n = Some i -> i < length (db_handles D)) ->
      exists e, delete_collection n D = (D, Err e) /\ get_collection n D = Err e).
  Proof using.
    clear. intros D n. split.
    - intros c h (i & Hg & Hh). unfold get_collection in Hg. unfold create_collection. destruct (db_closed D); [done|].
      destruct (db_colls D !! cf_name c); [|done]. destruct (validate c) as [[]|e|p] eqn:Ev; [eauto..|]. by apply validate_no_pan in Ev.
    - intros Hn Hidx. unfold names_to, get_collection in Hn. unfold delete_collection, get_collection. destruct (db_closed D); [by eexists|].
      destruct (db_colls D !! n) as [i|] eqn:Ec; [|by eexists]. exfalso.
      destruct (lookup_lt_is_Some_2 (db_handles D) i (Hidx _ eq_refl)) as [h Hh]. apply (Hn h). by exists i.
  Qed.

  (** With plain names nothing else can go wrong, also across reopenings: the
      answers are exactly those of a map. *)
  Theorem C41_behaves_like_a_map : forall l D, dhist fresh_db l D -> Forall plain_ev l ->
    (forall n h, names_to D n h -> exists c, created l !! n = Some c /\ cf_name (hd_cfg h) = n) /\
    (forall n, (exists h, names_to D n h) <-> is_Some (created l !! n)) /\
    (forall c, plain c -> (exists D' i, create_collection c D = (D', Val i)) <-> documented c /\ created l !! cf_name c = None) /\
    (forall n, (exists D', delete_collection n D = (D', Val tt)) <-> is_Some (created l !! n)).
  Proof using.
    intros l D H Hf. pose proof (plain_hist _ _ H Hf) as [Hop Hfi Hnd Hro Hma Hdo].
    assert (HN : forall n, (exists h, names_to D n h) <-> is_Some (created l !! n)).
    { intros n. unfold names_to, get_collection. rewrite Hop. split.
      - intros (h & i & Hg & Hh). destruct (db_colls D !! n) as [j|] eqn:Ec; [|done]. by eapply Hdo.
      - intros [c Hc]. destruct (Hma _ _ Hc) as (_ & _ & _ & _ & i & h & E1 & E2 & _). exists h, i. by rewrite E1. }
    split_and!; [|done|..].
    - intros n h (i & Hg & Hh). unfold get_collection in Hg. rewrite Hop in Hg. destruct (db_colls D !! n) as [j|] eqn:Ec; [|done].
      apply Val_inj in Hg as ->. destruct (Hdo _ _ Ec) as [c Hc]. exists c. split; [done|]. destruct (Hma _ _ Hc) as (E0 & _ & _ & _ & i2 & h2 & E1 & E2 & E3).
      rewrite Ec in E1. injection E1 as <-. rewrite Hh in E2. injection E2 as <-. by destruct E3 as [-> | ->].
    - intros c Hp. rewrite <- validate_spec. split.
      + intros (D' & i & Hc). apply create_val in Hc as (_ & Hv & Hc & _). split; [done|].
        destruct (created l !! cf_name c) as [c2|] eqn:E; [|done]. destruct (Hma _ _ E) as (_ & _ & _ & _ & i2 & h2 & E1 & _). by rewrite Hc in E1.
      + intros [Hv Hn]. destruct (create_ok c D Hp Hv Hop) as [D' HD'].
        * destruct (db_colls D !! cf_name c) eqn:E; [|done]. apply Hdo in E as [c2 E]. by rewrite Hn in E.
        * intros Hin. apply elem_of_list_fmap in Hin as (r & Er & Hr). destruct (Hro r Hr) as (c2 & E & _). rewrite <- Er in E. by rewrite Hn in E.
        * destruct (db_files D !! cf_name c) eqn:E; [|done]. destruct (pl_meta _ Hp). apply Hfi. by rewrite E.
        * by eauto.
    - intros n. split.
      + intros [D' Hd]. apply delete_val in Hd as (_ & [i Hi] & _). by eapply Hdo.
      + intros [c Hc]. destruct (Hma _ _ Hc) as (_ & _ & _ & Hin & i & h & E1 & _). unfold delete_collection. rewrite Hop, E1.
        apply existsb_names in Hin. rewrite Hin. by eexists.
  Qed.

  (** ** C42 A failed CreateCollection leaves no trace *)
  Theorem C42_failed_create_leaves_no_trace_partial : forall l D c D' e, dhist fresh_db l D -> Forall plain_ev l -> plain c ->
    create_collection c D = (D', Err e) -> D' = D.
  Proof using.
    intros l D c D' e H Hf Hp Hc. pose proof (plain_hist _ _ H Hf) as [Hop Hfi Hnd Hro Hma Hdo].
    pose proof Hc as Hc2. apply create_fail in Hc2 as (_ & _ & _ & _ & [Hx|[Hrw Hx]]); [done| |done].
    destruct (validate c) as [[]|e2|p] eqn:Ev; [|unfold create_collection in Hc; rewrite Hop, Ev in Hc; by injection Hc as <- _|by apply validate_no_pan in Ev].
    destruct (C41_behaves_like_a_map l D H Hf) as (_ & _ & Hm & _). destruct (Hm c Hp) as [_ Hm2].
    destruct Hm2 as (D2 & i & E); [|by rewrite Hc in E]. split; [by apply validate_spec|].
    destruct (created l !! cf_name c) as [c2|] eqn:E; [|done]. by destruct (Hma _ _ E) as (_ & _ & _ & Hin & _).
  Qed.

  (** ** C43 Configuration survives reopening *)
  (** Whatever the collections were used for: if Open succeeds, every
      collection is there, with its objects, vectors and id counter, but its
      configuration has lost the mappings and its numbers have become float64s. *)
  Theorem C43_reopened_collections_partial : forall l D D', dhist fresh_db l D -> Forall plain_ev l ->
    db_open (db_disk (db_close D).1) = Val D' ->
    forall n c, created l !! n = Some c -> exists h h', names_to D n h /\ names_to D' n h' /\
      hd_cfg h' = Config (cf_name c) (cf_index c) (cf_embedder c) (cf_data c) (params_stored (cf_params c)) (cf_embcfg c) [] /\
      objs (hd_st h') = objs (hd_st h) /\ vecs (hd_st h') = vecs (hd_st h) /\ wlog (hd_st h') = wlog (hd_st h) /\
      cfile (hd_st h') = cfile (hd_st h) /\ closed (hd_st h') = false.
  Proof using.
    intros l D D' H Hf Ho n c Hn. pose proof (plain_hist _ _ H Hf) as [Hop Hfi Hnd Hro Hma Hdo].
    assert (HP' : PI D' (created (l ++ [VReopen]))).
    { apply plain_hist; [econstructor; [done|by constructor]|]. apply Forall_app. split; [done|by apply Forall_singleton]. }
    rewrite close_disk in Ho. unfold db_open in Ho.
    destruct (open_rows_val _ _ _ Hnd Ho) as (H1 & H2 & H3 & H4 & H5 & H6).
    cbn [db_disk dd_rows dd_next db_rows db_colls db_files db_handles db_closed] in *.
    destruct (Hma _ _ Hn) as (E1 & E2 & E3 & E4 & i & h & E5 & E6 & E7). apply elem_of_list_fmap in E4 as (r & -> & Hr).
    destruct (H2 r Hr) as (i2 & s & F1 & F2 & F3). exists h, (Handle (row_config r) s).
    rewrite disk_files, E5 in F3. cbn [mbind option_bind] in F3. rewrite E6 in F3. apply new_collection_val in F3 as (_ & _ & s2 & Hs2 & [= ->]).
    destruct (reopen_store _ _ Hs2) as (R1 & R2 & R3 & R4 & R5 & R6 & R7 & R8 & R9). cbn in *.
    destruct (Hro r Hr) as (c2 & G1 & G2). rewrite Hn in G1. injection G1 as <-.
    split_and!; try done.
    - exists i. unfold get_collection. by rewrite Hop, E5.
    - exists i2. unfold get_collection. by rewrite (pi_open _ _ HP'), F1.
    - unfold row_config. by rewrite G2.
  Qed.

  (** ** C43, C44 for a database used calmly: Open succeeds and every
      collection has its configuration (but for the mappings), its contents
      and its index back. *)
  Theorem C44_database_reopens_partial : forall l D, calm fresh_db l D -> (N.of_nat (d_inserts l) < 2 ^ 64)%N ->
    exists D', db_open (db_disk (db_close D).1) = Val D' /\
    forall n c, created l !! n = Some c -> exists h h', names_to D n h /\ names_to D' n h' /\
      hd_cfg h' = Config (cf_name c) (cf_index c) (cf_embedder c) (cf_data c) (cf_params c) (cf_embcfg c) [] /\
      (cf_maps c = [] -> hd_cfg h = c /\ hd_cfg h' = c) /\
      objs (hd_st h') = objs (hd_st h) /\ vecs (hd_st h') = vecs (hd_st h) /\ cnt (hd_st h') = cnt (hd_st h) /\
      nodes (hd_st h') = nodes (hd_st h) /\ ep (hd_st h') = ep (hd_st h) /\ maxl (hd_st h') = maxl (hd_st h) /\ deleted (hd_st h') = deleted (hd_st h).
  Proof using.
    intros l D H Hn. destruct (calm_inv l D H Hn) as (HPI & HF & HT). destruct (calm_dhist _ _ _ H) as [Hd Hpl].
    pose proof HPI as [Hop Hfi Hnd Hro Hma Hdo].
    assert (HR : forall n c, created l !! n = Some c -> exists i h s', db_colls D !! n = Some i /\ db_handles D !! i = Some h /\ (hd_cfg h = c \/ hd_cfg h = reloaded c) /\
      params_stored (cf_params c) = cf_params c /\ reopen (disk_of (hd_st h)) = Val s' /\
      objs s' = objs (hd_st h) /\ vecs s' = vecs (hd_st h) /\ cnt s' = cnt (hd_st h) /\
      nodes s' = nodes (hd_st h) /\ ep s' = ep (hd_st h) /\ maxl s' = maxl (hd_st h) /\ deleted s' = deleted (hd_st h)).
    { intros n c Hc. destruct (Hma _ _ Hc) as (E1 & E2 & E3 & E4 & i & h & E5 & E6 & E7).
      pose proof (faithful_stored c (HF _ _ Hc) E3 (pl_index _ E2)) as Er.
      destruct (traced_reopens _ h Hn (HT _ _ _ E5 E6)) as (s' & K0 & _ & K1).
      exists i, h, s'. split_and!; try done; apply K1. }
    rewrite close_disk.
    assert (exists D', db_open (db_disk D) = Val D') as [D' Ho].
    { apply open_rows_ok; [done|]. intros r Hr. cbn [db_disk dd_rows dd_next db_files].
      destruct (Hro r Hr) as (c & G1 & G2). destruct (HR _ _ G1) as (i & h & s' & K1 & K2 & K3 & K4 & K5 & _).
      rewrite disk_files, K1. cbn [mbind option_bind]. rewrite K2. eexists. apply new_collection_ok; [|done].
      cbn. rewrite G2. cbn. apply (Hma _ _ G1). }
    exists D'. split; [done|]. intros n c Hc.
    pose proof Ho as Ho2. rewrite <- close_disk in Ho2.
    destruct (C43_reopened_collections_partial l D D' Hd Hpl Ho2 n c Hc) as (h0 & h' & N1 & N2 & Ecfg & _).
    destruct (HR _ _ Hc) as (i & h & s' & K1 & K2 & K3 & K4 & K5 & K6). rewrite K4 in Ecfg.
    exists h, h'. assert (Hns : names_to D n h) by (exists i; unfold get_collection; by rewrite Hop, K1).
    split; [done|]. split; [done|]. split; [done|].
    split. { intros Em. assert (Config (cf_name c) (cf_index c) (cf_embedder c) (cf_data c) (cf_params c) (cf_embcfg c) [] = c) as Ec by (by destruct c; cbn in *; subst).
      rewrite Ecfg, Ec. split; [|done]. destruct K3 as [K3|K3]; [done|]. rewrite K3. unfold reloaded. by rewrite K4. }
    assert (hd_st h' = s') as ->; [|done].
    destruct (open_rows_val _ _ _ Hnd Ho) as (H1 & H2 & _ & _ & _ & H6). cbn [db_disk dd_rows dd_next db_files db_closed] in *.
    destruct (Hma _ _ Hc) as (_ & _ & _ & E4 & _). apply elem_of_list_fmap in E4 as (r & -> & Hr).
    destruct (H2 r Hr) as (i2 & s & F1 & F2 & F3). rewrite disk_files, K1 in F3. cbn [mbind option_bind] in F3. rewrite K2 in F3.
    apply new_collection_val in F3 as (_ & _ & s2 & Hs2 & [= ->]). rewrite K5 in Hs2. apply Val_inj in Hs2 as <-.
    destruct N2 as (i3 & Hg & Hh3). unfold get_collection in Hg. rewrite (H6 eq_refl), F1 in Hg. apply Val_inj in Hg as ->. rewrite F2 in Hh3. by injection Hh3 as <-.
  Qed.
End hist.
Print Assumptions C40_closed_database_refuses.
Print Assumptions C40_close_closes_everything.
Print Assumptions C41_names_resolve.
Print Assumptions C41_refused_changes_nothing.
Print Assumptions C41_behaves_like_a_map.
Print Assumptions C42_failed_create_leaves_no_trace_partial.
Print Assumptions C43_reopened_collections_partial.
Print Assumptions C44_database_reopens_partial.

(** ** Concrete databases *)
Definition no_embed : string -> jval -> embedder := fun _ _ _ => None.
Definition ok_raw : raw := Raw 2 2 4 4 true "euclidean_distance".
Definition ok_cfg (n : string) (maps : list string) : config := Config n "hnsw" "" "text" (IPOk ok_raw) JNull maps.
Definition ann_cfg (n : string) : config := Config n "disk_ann" "" "text" (IPOk ok_raw) JNull [].
Lemma ok_plain n maps : ~ In "/"%char (list_ascii_of_string n) -> n <> "."%string -> n <> ".."%string -> n <> "metadata.db"%string -> plain (ok_cfg n maps).
Proof. intros ? ? ? ?. split; try done. by left. Qed.
Lemma ok_documented n maps : n <> ""%string -> documented (ok_cfg n maps).
Proof. intros Hn. split_and!; try done; [|by left]. right. split; [done|]. exists ok_raw. split_and!; try done. by right. Qed.
Definition ob0 (v : N) : object := Object 0 ∅ (Some [v]).

(** Runs a script on a database. *)
Inductive dsev := QCreate (c : config) | QDelete (n : string) | QUse (i : nat) (c : call) (rounds : nat) | QReopen.
Section drun.
  Context (env_embed : string -> jval -> embedder) (J : json) (maxv : N) (workers fuel : nat).
  Definition dstep_exec (e : dsev) (D : db) : option (dev * db) :=
    match e with
    | QCreate c => let '(D', r) := create_collection c D in Some (VCreate c r, D')
    | QDelete n => let '(D', r) := delete_collection n D in Some (VDelete n r, D')
    | QUse i c rounds =>
        h ← db_handles D !! i;
        C ← cparams_of env_embed J maxv workers fuel (hd_cfg h);
        '(s', r) ← call_exec C c [] rounds (hd_st h);
        Some (VUse i c r, DB (db_rows D) (db_next D) (db_files D) (db_colls D) (<[i := Handle (hd_cfg h) s']> (db_handles D)) (db_closed D))
    | QReopen => match db_open (db_disk (db_close D).1) with Val D' => Some (VReopen, D') | _ => None end
    end.
  Fixpoint drun (l : list dsev) (D : db) : option (list dev * db) :=
    match l with
    | [] => Some ([], D)
    | e :: l' => '(v, D1) ← dstep_exec e D; '(vs, D2) ← drun l' D1; Some (v :: vs, D2)
    end.
  Lemma dstep_exec_ok e D v D' : dstep_exec e D = Some (v, D') -> dstep env_embed J maxv workers fuel D v D'.
  Proof using.
    destruct e as [c|n|i c rounds|]; cbn [dstep_exec].
    - destruct (create_collection c D) as [D1 r] eqn:E. intros [= <- <-]. by constructor.
    - destruct (delete_collection n D) as [D1 r] eqn:E. intros [= <- <-]. by constructor.
    - destruct (db_handles D !! i) as [h|] eqn:E1; [|done]. cbn [mbind option_bind].
      destruct (cparams_of _ _ _ _ _ _) as [C|] eqn:E2; [|done]. cbn [mbind option_bind].
      destruct (call_exec _ _ _ _ _) as [[s' r]|] eqn:E3; [|done]. cbn [mbind option_bind]. intros [= <- <-].
      econstructor; [done|exact E2|]. by eapply call_exec_run.
    - destruct (db_open _) as [D1|e|p] eqn:E; [|done..]. intros [= <- <-]. by constructor.
  Qed.
  Lemma dhist_cons D v D1 l D2 : dstep env_embed J maxv workers fuel D v D1 -> dhist env_embed J maxv workers fuel D1 l D2 -> dhist env_embed J maxv workers fuel D (v :: l) D2.
  Proof using.
    intros Hs H. induction H as [|l e D3 D4 H IH Hs2]; [change [v] with ([] ++ [v]); econstructor; [constructor|done]|].
    change (v :: l ++ [e]) with ((v :: l) ++ [e]). by econstructor.
  Qed.
  Lemma drun_ok l : forall D vs D', drun l D = Some (vs, D') -> dhist env_embed J maxv workers fuel D vs D'.
  Proof using.
    induction l as [|e l IH]; intros D vs D' H; cbn [drun] in H; [injection H as <- <-; constructor|].
    destruct (dstep_exec e D) as [[v D1]|] eqn:E; [|done]. cbn [mbind option_bind] in H.
    destruct (drun l D1) as [[vs2 D2]|] eqn:E2; [|done]. cbn [mbind option_bind] in H. injection H as <- <-.
    eapply dhist_cons; [by eapply dstep_exec_ok|by apply IH].
  Qed.
  Lemma drun_create c l D vs D' : drun (QCreate c :: l) D = Some (vs, D') -> vs !! 0 = Some (VCreate c (create_collection c D).2).
  Proof using.
    cbn [drun dstep_exec]. destruct (create_collection c D) as [D1 r]. cbn [mbind option_bind].
    destruct (drun l D1) as [[vs2 D2]|]; [|done]. cbn [mbind option_bind]. by intros [= <- _].
  Qed.
  Lemma drun_witness l (P : list dev -> db -> bool) :
    match drun l fresh_db with Some (vs, D) => P vs D | None => false end = true ->
    exists vs D, dhist env_embed J maxv workers fuel fresh_db vs D /\ P vs D = true.
  Proof using.
    destruct (drun l fresh_db) as [[vs D]|] eqn:E; [|done]. intros H. exists vs, D. split; [by eapply drun_ok|done].
  Qed.
End drun.

(** The calm histories meet every hypothesis of the theorems above: two
    collections, one with mappings, used, one deleted and created again, the
    database reopened in between. *)
Definition calm_script : list dsev :=
  [ QCreate (ok_cfg "x" []); QCreate (ok_cfg "y" ["a"%string]); QUse 0 (CInsert true 0 (ob0 0)) 0; QUse 0 (CInsert true 1 (ob0 1065353216)) 0;
    QUse 1 (CInsert true 0 (ob_a 1 [0%N])) 0; QReopen; QUse 0 (CInsert true 0 (ob0 1073741824)) 0; QUse 0 (CDelete true 0) 0;
    QDelete "y"; QCreate (ok_cfg "y" ["a"%string]); QUse 2 (CInsert true 0 (ob_a 2 [0%N])) 0; QUse 1 (CInsert true 0 (ob_a 3 [0%N])) 0 ].
(** Checks calmness while running. *)
Definition calmb (v : dev) (D' : db) : bool :=
  match v with
  | VCreate c _ => bool_decide (cf_name c ∈ ["x"%string; "y"%string])
  | VUse i c r => quietb (EvCall c r) && match db_handles D' !! i with Some h => (N.of_nat (length (log_view (hd_st h))) + 1 <? 2 ^ 64)%N && bool_decide (cf_embedder (hd_cfg h) = ""%string) | None => false end
  | _ => true
  end.
Fixpoint drun_calm (l : list dsev) (D : db) : option (list dev * db) :=
  match l with
  | [] => Some ([], D)
  | e :: l' => '(v, D1) ← dstep_exec no_embed ex_json 65536 2 50 e D;
      if calmb v D1 then '(vs, D2) ← drun_calm l' D1; Some (v :: vs, D2) else None
  end.
Definition script_cfg (e : dsev) : Prop :=
  match e with QCreate c => c = ok_cfg "x" [] \/ c = ok_cfg "y" ["a"%string] | _ => True end.
Notation calm0 := (calm no_embed ex_json 65536 2 50).
Lemma calm_cons D v D1 l D2 : dstep no_embed ex_json 65536 2 50 D v D1 -> ev_calm no_embed ex_json 65536 2 50 D v D1 -> calm0 D1 l D2 -> calm0 D (v :: l) D2.
Proof.
  intros Hs Hc H. induction H as [|l e D3 D4 H IH Hs2 Hc2]; [change [v] with ([] ++ [v]); econstructor; [constructor|done|done]|].
  change (v :: l ++ [e]) with ((v :: l) ++ [e]). by econstructor.
Qed.
Lemma drun_calm_ok l : forall D vs D', Forall script_cfg l -> drun_calm l D = Some (vs, D') -> calm0 D vs D'.
Proof.
  induction l as [|e l IH]; intros D vs D' Hf H; cbn [drun_calm] in H; [injection H as <- <-; constructor|]. apply Forall_cons in Hf as [He Hf].
  destruct (dstep_exec _ _ _ _ _ e D) as [[v D1]|] eqn:E; [|done]. cbn [mbind option_bind] in H. destruct (calmb v D1) eqn:Ecb; [|done].
  destruct (drun_calm l D1) as [[vs2 D2]|] eqn:E2; [|done]. cbn [mbind option_bind] in H. injection H as <- <-.
  eapply calm_cons; [by eapply dstep_exec_ok| |by apply IH]. clear IH E2.
  assert (Hcfg : forall c r, v = VCreate c r -> c = ok_cfg "x" [] \/ c = ok_cfg "y" ["a"%string]).
  { intros c r ->. destruct e as [c0|n|i c0 rounds|]; cbn [dstep_exec] in E.
    - destruct (create_collection c0 D). injection E as <- <- _. done.
    - by destruct (delete_collection n D).
    - destruct (db_handles D !! i) as [h|]; [|done]. cbn in E. destruct (cparams_of _ _ _ _ _ _) as [C|]; [|done]. cbn in E. by destruct (call_exec _ _ _ _ _) as [[s' r0]|].
    - by destruct (db_open _). }
  destruct v as [c r|n r|n r|i c r|]; cbn [ev_calm]; try done.
  - destruct (Hcfg c r eq_refl) as [-> | ->].
    all: split; [apply ok_plain; [cbn; intuition discriminate|done..]|]; split; [intros r0 [= <-]; done|]; intros C [= <-]; by split.
  - intros h C h' Hh HC Hh'. cbn [calmb] in Ecb. apply andb_true_iff in Ecb as [E1 E3]. rewrite Hh' in E3. apply andb_true_iff in E3 as [E3 E4].
    split; [|by apply N.ltb_lt]. apply quietb_ok; [|done]. apply bool_decide_eq_true_1 in E4.
    assert (hd_cfg h' = hd_cfg h) as Ec.
    { apply dstep_exec_ok in E. inversion E as [| | |i1 h1 C1 c1 s' r1 Hi1 Hp Hr|]; subst. cbn [db_handles] in Hh'.
      rewrite list_lookup_insert in Hh' by (by eapply lookup_lt_Some). injection Hh' as <-. rewrite Hh in Hi1. by injection Hi1 as <-. }
    rewrite Ec in E4. unfold cparams_of in HC. rewrite E4 in HC. destruct (cf_params (hd_cfg h)); [done..|]. by injection HC as <-.
Qed.
Example C44_case : exists l D, calm0 fresh_db l D /\ (N.of_nat (d_inserts l) < 2 ^ 64)%N /\
  created l !! "x"%string = Some (ok_cfg "x" []) /\ created l !! "y"%string = Some (ok_cfg "y" ["a"%string]) /\
  exists h, names_to D "x" h /\ size (nodes (hd_st h)) = 3 /\ deleted (hd_st h) = {[0]}%N /\ size (objs (hd_st h)) = 2.
Proof.
  assert (match drun_calm calm_script fresh_db with
    | Some (l, D) => bool_decide (d_inserts l = 6) && bool_decide (cf_maps <$> created l !! "x"%string = Some []) && bool_decide (db_colls D !! "x"%string = Some 0) && negb (db_closed D) &&
        match db_handles D !! 0 with Some h => bool_decide (size (nodes (hd_st h)) = 3) && bool_decide (deleted (hd_st h) = {[0]}%N) && bool_decide (size (objs (hd_st h)) = 2) | None => false end
    | None => false end = true) as H by (vm_compute; reflexivity).
  destruct (drun_calm calm_script fresh_db) as [[l D]|] eqn:E; [|done].
  assert (Hl : created l !! "x"%string = Some (ok_cfg "x" []) /\ created l !! "y"%string = Some (ok_cfg "y" ["a"%string])).
  { assert ((fun '(l, D) => (created l !! "x"%string, created l !! "y"%string)) <$> drun_calm calm_script fresh_db = Some (Some (ok_cfg "x" []), Some (ok_cfg "y" ["a"%string]))) as H2 by (vm_compute; reflexivity).
    rewrite E in H2. cbn [fmap option_fmap option_map] in H2. injection H2 as H3 H4. split; [exact H3|exact H4]. }
  exists l, D. split; [eapply drun_calm_ok; [|exact E]; repeat constructor; by (left + right)|]. clear E.
  repeat (apply andb_true_iff in H as [H ?]). apply bool_decide_eq_true_1 in H. split; [by rewrite H|]. destruct Hl as [Hl1 Hl2]. split; [exact Hl1|]. split; [exact Hl2|].
  destruct (db_handles D !! 0) as [h|] eqn:Eh; [|done]. exists h. match goal with H : _ && _ = true |- _ => repeat (apply andb_true_iff in H as [H ?]) end.
  repeat match goal with H : bool_decide _ = true |- _ => apply bool_decide_eq_true_1 in H end.
  split; [|done]. exists 0. split; [|done]. unfold get_collection. match goal with H : negb _ = true |- _ => apply negb_true_iff in H; rewrite H end.
  match goal with H : db_colls D !! _ = Some _ |- _ => by rewrite H end.
Qed.

(** *** C42, C44: creating a DiskANN collection, or one whose name is taken by
    a file of the database, fails but leaves a row: the database cannot be
    opened any more, whatever happens afterwards to other collections. *)
Theorem C42_failed_create_leaves_no_trace_refuted :
  (exists c D e, documented c /\ create_collection c fresh_db = (D, Err e) /\
     db_open (db_disk (db_close fresh_db).1) = Val fresh_db /\ db_open (db_disk (db_close D).1) = Err EUnknownIndexType) /\
  (exists c D e, documented c /\ cf_index c = "hnsw"%string /\ create_collection c fresh_db = (D, Err e) /\
     db_open (db_disk (db_close D).1) = Err ENotDir) /\
  (exists c D e D' h, documented c /\ create_collection c fresh_db = (D, Err e) /\ (forall h, ~ names_to D "." h) /\
     db_open (db_disk (db_close D).1) = Val D' /\ names_to D' "." h).
Proof.
  split_and!.
  - exists (ann_cfg "v"). eexists _, _. split; [|split; [vm_compute; reflexivity|split; vm_compute; reflexivity]].
    split_and!; try done; by left.
  - exists (ok_cfg "metadata.db" []). eexists _, _. split; [by apply ok_documented|]. split; [done|]. split; [vm_compute; reflexivity|vm_compute; reflexivity].
  - exists (ok_cfg "." []). eexists _, _, _, (Handle (reloaded (ok_cfg "." [])) empty_st). split; [by apply ok_documented|].
    split; [vm_compute; reflexivity|]. split; [|split; [vm_compute; reflexivity|exists 0; split; vm_compute; reflexivity]].
    intros h (i & Hi & _). vm_compute in Hi. done.
Qed.
Print Assumptions C42_failed_create_leaves_no_trace_refuted.

(** The row is never removed: no API call can repair the database. *)
Definition stuck_row (D : db) : Prop :=
  exists r, r ∈ db_rows D /\ cf_index (row_cfg r) <> "hnsw"%string /\ db_colls D !! cf_name (row_cfg r) = None.
Lemma open_rows_bad rows D r : r ∈ rows -> cf_index (row_cfg r) <> "hnsw"%string -> NoDup (names rows) -> forall D', open_rows rows D <> Val D'.
Proof.
  intros Hr Hi Hnd D' Ho. destruct (open_rows_val _ _ _ Hnd Ho) as (_ & H & _). destruct (H r Hr) as (i & s & _ & _ & E).
  apply new_collection_val in E as (_ & E & _). done.
Qed.
Theorem C44_database_reopens_refuted : exists c D e,
  documented c /\ create_collection c fresh_db = (D, Err e) /\
  forall env_embed J maxv workers fuel l D', dhist env_embed J maxv workers fuel D l D' -> forall D2, db_open (db_disk (db_close D').1) <> Val D2.
Proof.
  exists (ann_cfg "v"). destruct (create_collection (ann_cfg "v") fresh_db) as [D r] eqn:E. exists D, EUnknownIndexType.
  assert (r = Err EUnknownIndexType) as -> by (change r with (D, r).2; rewrite <- E; vm_compute; reflexivity).
  assert (db_rows D = [Row 1 (stored (ann_cfg "v"))]) as Hrows by (change D with (D, @Err nat EUnknownIndexType).1; rewrite <- E; vm_compute; reflexivity).
  destruct (create_fail _ _ _ _ E) as (_ & Hcolls & Hhd & Hcl & _); [done|].
  split; [split_and!; try done; by left|]. split; [done|].
  intros env_embed J maxv workers fuel l D' H D2.
  assert (NoDup (names (db_rows D))) as Hn0 by (rewrite Hrows; apply NoDup_singleton).
  assert (forall n i, db_colls D !! n = Some i -> i < length (db_handles D)) as Hi0 by (by rewrite Hcolls).
  destruct (dhist_idx env_embed J maxv workers fuel D l D' H Hi0 Hn0) as [_ Hnd].
  assert (stuck_row D' /\ db_closed D' = false) as [(r & Hr & Hi & _) _].
  { clear E. induction H as [|l e D1 D3 H IH Hs].
    - split; [|by rewrite Hcl]. exists (Row 1 (stored (ann_cfg "v"))). rewrite Hrows, Hcolls. split; [by left|]. done.
    - destruct (dhist_idx env_embed J maxv workers fuel D l D1 H Hi0 Hn0) as [Hx1 Hnd1].
      destruct (IH Hnd1) as [(r & Hr & Hi & Hc) Hop].
      inversion Hs as [c D4 r1 Hcr|n D4 r1 Hcr|n r1 Hcr|i h C c s' r1 Hi1 Hp Hrn|D4 Ho]; subst.
      + destruct r1 as [i|e|p].
        * apply create_val in Hcr as (_ & _ & _ & Hn & _ & _ & _ & ->). split; [|done]. exists r. split; [cbn; set_solver|]. split; [done|]. cbn.
          rewrite lookup_insert_ne; [done|]. intros E. apply Hn. rewrite E. apply elem_of_list_fmap. by exists r.
        * apply create_fail in Hcr as (_ & E1 & _ & E2 & E3); [|done]. rewrite E2. split; [|done]. exists r. rewrite E1. split; [|done].
          destruct E3 as [->|[-> _]]; [done|]. apply elem_of_app. by left.
        * by apply create_fail in Hcr as ([e [=]] & _).
      + destruct r1 as [[]|e|p]; [|by apply delete_fail in Hcr as [-> _]; [split; [by exists r|]|]..].
        apply delete_val in Hcr as (_ & Hs1 & _ & ->). split; [|done]. exists r. cbn. split; [apply elem_filter_rows; split; [done|]|].
        * intros E. rewrite E in Hc. rewrite Hc in Hs1. by destruct Hs1.
        * split; [done|]. rewrite lookup_delete_ne; [done|]. intros E. rewrite <- E in Hc. rewrite Hc in Hs1. by destruct Hs1.
      + split; [by exists r|done].
      + split; [by exists r|done].
      + exfalso. unfold db_open in Ho. cbn [db_disk db_close fst dd_rows db_rows] in Ho. by eapply open_rows_bad. }
  unfold db_open. cbn [db_disk db_close fst dd_rows db_rows]. by apply (open_rows_bad _ _ r).
Qed.
Print Assumptions C44_database_reopens_refuted.

(** The same with ordinary names only: a batch one of whose objects cannot be
    stored (its properties cannot be encoded) returns an error without writing
    the log of the object that could; after a clean Close, Open panics. *)
Theorem C44_failed_batch_refuted : exists env_embed J maxv workers fuel l D,
  dhist env_embed J maxv workers fuel fresh_db l D /\ Forall plain_ev l /\ length l = 2 /\
  (exists c rs, VUse 0 c (RBatch (Err EJSON) rs) ∈ l) /\
  db_open (db_disk (db_close D).1) = Pan PNil.
Proof.
  exists no_embed, ex_json, 65536%N, 1, 50.
  destruct (drun no_embed ex_json 65536 1 50 [ QCreate (ok_cfg "x" ["a"%string]);
    QUse 0 (CBatch true [(ob_a 1 [0%N], 0); (ob_a 10 [0%N], 0)]) 60 ] fresh_db) as [[l D]|] eqn:E.
  2:{ exfalso. vm_compute in E. discriminate. }
  exists l, D. split; [by eapply drun_ok|].
  assert ((fun '(l, D) => (match l with [VCreate c r; VUse 0 c2 (RBatch (Err EJSON) rs)] => bool_decide (cf_name c = "x"%string) | _ => false end,
    match db_open (db_disk (db_close D).1) with Pan PNil => true | _ => false end)) <$> (drun no_embed ex_json 65536 1 50 [ QCreate (ok_cfg "x" ["a"%string]);
    QUse 0 (CBatch true [(ob_a 1 [0%N], 0); (ob_a 10 [0%N], 0)]) 60 ] fresh_db) = Some (true, true)) as H by (vm_compute; reflexivity).
  rewrite E in H. cbn [fmap option_fmap option_map] in H. injection H as H1 H2.
  assert (Hl : exists r, (l !! 0) = Some (VCreate (ok_cfg "x" ["a"%string]) r)).
  { eexists. by eapply drun_create. }
  clear E. destruct Hl as [r Hl]. destruct l as [|v l]; [done|]. injection Hl as ->. destruct l as [|v2 l]; [done|].
  destruct v2 as [c1 r1|n1 r1|n1 r1|i c2 r2|]; try discriminate H1. destruct i; [|discriminate H1]. destruct r2 as [|[u|[]|p] rs| | | |]; try discriminate H1. destruct l; [|discriminate H1].
  split; [|split; [done|split; [by exists c2, rs; right; left|]]].
  - constructor; [apply ok_plain; [cbn; intuition discriminate|done..]|by repeat constructor].
  - destruct (db_open _) as [|e|[]]; done.
Qed.
Print Assumptions C44_failed_batch_refuted.

(** *** C43: the mappings are lost, and large numbers change *)
Theorem C43_configuration_survives_refuted :
  (exists c D i D' h, documented c /\ plain c /\ create_collection c fresh_db = (D, Val i) /\
     db_open (db_disk (db_close D).1) = Val D' /\ names_to D' (cf_name c) h /\ cf_maps c <> cf_maps (hd_cfg h)) /\
  (exists c D i D' h r r', documented c /\ plain c /\ create_collection c fresh_db = (D, Val i) /\
     db_open (db_disk (db_close D).1) = Val D' /\ names_to D' (cf_name c) h /\ cf_maps c = [] /\
     cf_params c = IPOk r /\ cf_params (hd_cfg h) = IPOk r' /\ r_ef r' = (r_ef r - 1)%Z).
Proof.
  split.
  - exists (ok_cfg "x" ["a"%string]). eexists _, _, _, (Handle (ok_cfg "x" []) empty_st).
    split; [by apply ok_documented|]. split; [apply ok_plain; [cbn; intuition discriminate|done..]|].
    split; [vm_compute; reflexivity|]. split; [vm_compute; reflexivity|]. split; [|done]. exists 0. split; vm_compute; reflexivity.
  - set (c := Config "x" "hnsw" "" "text" (IPOk (Raw 2 2 4 9007199254740993 true "euclidean_distance")) JNull []).
    exists c. eexists _, _, _, (Handle (reloaded c) empty_st), _, _.
    split. { split_and!; try done; [|by left]. right. split; [done|]. eexists. split; [done|]. split_and!; try done. by right. }
    split. { split; try done; [cbn; intuition discriminate|by left]. }
    split; [vm_compute; reflexivity|]. split; [vm_compute; reflexivity|]. split; [exists 0; split; vm_compute; reflexivity|].
    split; [done|]. split; [done|]. split; [done|]. by vm_compute.
Qed.
Print Assumptions C43_configuration_survives_refuted.

(** ** C45 Recreating a deleted collection starts empty *)
(** Whenever CreateCollection succeeds, in whatever database: the new
    collection is an empty one, so that all theorems about histories from
    [empty_st] apply to it; every other name and every handle is as before. *)
Theorem C45_created_collection_is_empty : forall D c D' i, create_collection c D = (D', Val i) ->
  names_to D' (cf_name c) (Handle c empty_st) /\
  (forall n h, n <> cf_name c -> names_to D n h -> names_to D' n h) /\
  (forall n h, (forall m j, db_colls D !! m = Some j -> j < length (db_handles D)) -> n <> cf_name c -> names_to D' n h -> names_to D n h) /\
  (forall j h, db_handles D !! j = Some h -> db_handles D' !! j = Some h).
Proof.
  intros D c D' i H. apply create_val in H as (Hop & _ & _ & _ & _ & _ & -> & ->). unfold names_to, get_collection. cbn [db_closed db_colls db_handles].
  assert (Hk : forall j h, db_handles D !! j = Some h -> (db_handles D ++ [Handle c empty_st]) !! j = Some h) by (intros; by apply lookup_app_l_Some).
  rewrite Hop. split_and!; [| | |done].
  - exists (length (db_handles D)). rewrite lookup_insert. split; [done|]. by rewrite lookup_app_r, Nat.sub_diag by lia.
  - intros n h Hne (j & Hj & Hh). exists j. rewrite lookup_insert_ne by done. split; [done|]. by apply Hk.
  - intros n h Hidx Hne (j & Hj & Hh). exists j. rewrite lookup_insert_ne in Hj by done. split; [done|].
    destruct (db_colls D !! n) as [k|] eqn:Ek; [|done]. apply Val_inj in Hj as ->. apply Hidx in Ek. by rewrite lookup_app_l in Hh.
Qed.
Print Assumptions C45_created_collection_is_empty.
(** What an empty collection is, as its callers see it: no objects, and the
    first object stored gets id 0. *)
Theorem C45_empty_collection : forall C,
  exec get_size empty_st = Some (empty_st, Val 0) /\
  (forall ids, exec (CollModel.get C ids) empty_st = Some (empty_st, Val [])) /\
  (forall io level o s' o', exec (CollModel.insert C 0 io level o) empty_st = Some (s', Val o') -> o_id o' = 0%N).
Proof.
  intros C. split_and!; [by vm_compute| |].
  - intros ids. unfold CollModel.get. rewrite exec_act. cbn [closed empty_st]. f_equal. f_equal.
    induction ids as [|id ids IH]; [done|]. cbn [get_objects].
    assert (get_object (cp_json C) empty_st id = Val None) as -> by (unfold get_object; cbn [objs empty_st]; by rewrite lookup_empty).
    cbn [mbind out_bind]. by rewrite IH.
  - intros io level o s' o' Hx.
    assert (Hrun : ev_step C empty_st (EvCall (CInsert io level o) (RIns (Val o'))) s') by (by do 2 constructor).
    assert (Hh : hist C empty_st [EvCall (CInsert io level o) (RIns (Val o'))] s').
    { change [EvCall (CInsert io level o) (RIns (Val o'))] with ([] ++ [EvCall (CInsert io level o) (RIns (Val o'))]). econstructor; [constructor|done]. }
    assert (Hb : (cnt empty_st + N.of_nat (hist_inserts [EvCall (CInsert io level o) (RIns (Val o'))]) < 2 ^ 64)%N) by (by vm_compute).
    destruct (hist_ids C empty_st _ s' SInv_empty Hb Hh) as [_ Hid].
    destruct (hist_store C empty_st _ s' SInv_empty Hb Hh) as [_ Hc]. cbn in Hc.
    specialize (Hid (o_id o')). cbn in Hid. specialize (Hid ltac:(set_solver)). lia.
Qed.
Print Assumptions C45_empty_collection.
(** Deleting a collection touches no other. *)
Theorem C45_delete_is_local : forall D n D', delete_collection n D = (D', Val tt) ->
  (forall h, ~ names_to D' n h) /\ (forall m h, m <> n -> (names_to D' m h <-> names_to D m h)).
Proof.
  intros D n D' H. apply delete_val in H as (Hop & _ & _ & ->). unfold names_to, get_collection. cbn [db_closed db_colls db_handles]. rewrite Hop. split.
  - intros h (i & Hi & _). by rewrite lookup_delete in Hi.
  - intros m h Hne. by rewrite lookup_delete_ne by done.
Qed.
Print Assumptions C45_delete_is_local.

(** ** C46 A handle of a deleted collection stops working *)
(** It does not: the handle still accepts an object after the deletion. *)
Theorem C46_deleted_handle_refuted : exists c D i D1 h C s' o',
  create_collection c fresh_db = (D, Val i) /\ delete_collection (cf_name c) D = (D1, Val tt) /\ db_handles D1 !! i = Some h /\
  cparams_of no_embed ex_json 65536 2 50 (hd_cfg h) = Some C /\ call_run C (hd_st h) (CInsert true 0 (ob0 0)) s' (RIns (Val o')) /\
  exec get_size s' = Some (s', Val 1).
Proof.
  exists (ok_cfg "x" []). eexists _, 0, _, (Handle (ok_cfg "x" []) empty_st), _, _, _.
  split; [vm_compute; reflexivity|]. split; [vm_compute; reflexivity|]. split; [vm_compute; reflexivity|]. split; [reflexivity|].
  split; [constructor; vm_compute; reflexivity|vm_compute; reflexivity].
Qed.
Print Assumptions C46_deleted_handle_refuted.
(** What holds: the name is free again, and DeleteCollection leaves every
    handle exactly as it was, so that one that had been closed stays closed. *)
Theorem C46_deleted_handle_partial : forall D n D', delete_collection n D = (D', Val tt) ->
  (forall h, ~ names_to D' n h) /\ db_handles D' = db_handles D.
Proof.
  intros D n D' H. split; [by eapply C45_delete_is_local|]. by apply delete_val in H as (_ & _ & _ & ->).
Qed.
Print Assumptions C46_deleted_handle_partial.

(** ** C47 REST status codes reflect the outcome *)
Definition resolves (D : db) (n : string) : Prop := exists i, get_collection n D = Val i.
Lemma create_validation c D D' e : create_collection c D = (D', Err e) ->
  is_validation e = true <-> db_closed D = false /\ validate c <> Val tt.
Proof.
  unfold create_collection. destruct (db_closed D); [intros [= <- <-]; cbn; split; [done|by intros []]|].
  destruct (validate c) as [[]|e1|p] eqn:Ev; [|intros [= <- <-]; done|by apply validate_no_pan in Ev].
  intros H. assert (is_validation e = false) as ->; [|split; [done|by intros []]].
  destruct (db_colls D !! cf_name c); [by injection H as <- <-|]. unfold meta_create in H. destruct (cf_params c); [by injection H as <- <-| |].
  all: destruct (negb _); [by injection H as <- <-|]; destruct (existsb _ _); [by injection H as <- <-|]; unfold mkdir in H;
    destruct (has_slash _); [by injection H as <- <-|]; destruct (_ || _); [by injection H as <- <-|]; destruct (db_files D !! cf_name c); [by injection H as <- <-|];
    cbn [db_files db_handles db_rows db_next db_colls db_closed] in H; rewrite lookup_insert in H; unfold new_collection in H; cbn [d_cfile empty_disk] in H;
    replace (open_counter []) with (@Val N 0%N) in H by (by vm_compute); cbn [mbind out_bind] in H;
    destruct (String.eqb_spec (cf_index c) "hnsw") as [Ei|Ei]; [|by injection H as <- <-];
    change (Disk [] [] ∅ ∅) with empty_disk in H; rewrite reopen_empty in H; cbn [mbind out_bind] in H; done.
Qed.

Theorem C47_post_status : forall D c D' resp, rest_add c D = (D', resp) -> exists code body, resp = Some (code, body) /\
  (code = 201%N <-> ~ resolves D (cf_name c) /\ resolves D' (cf_name c)) /\
  (code = 400%N <-> db_closed D = false /\ ~ documented c) /\
  (code = 201%N \/ code = 400%N \/ code = 500%N) /\
  (code <> 201%N -> db_colls D' = db_colls D /\ db_handles D' = db_handles D).
Proof.
  intros D c D' resp H. unfold rest_add in H. destruct (create_collection c D) as [D1 r] eqn:E. injection H as <- <-.
  destruct r as [i|e|p].
  - eexists _, _. split; [done|]. pose proof (C45_created_collection_is_empty _ _ _ _ E) as ((j & Hj & _) & _).
    apply create_val in E as (Hop & Hv & Hc & _). split_and!; [|split; [done|intros [_ Hd]; by apply validate_spec in Hv]|by left|done].
    split; [intros _|done]. split; [|by exists j]. intros [k Hk]. unfold get_collection in Hk. rewrite Hop, Hc in Hk. done.
  - eexists _, _. split; [done|]. pose proof (create_validation _ _ _ _ E) as Hv.
    destruct (create_fail _ _ _ _ E) as (_ & E1 & E2 & E3 & _); [done|]. unfold err_response. split_and!.
    + split; [by destruct (is_validation e)|]. intros [Hn [k Hk]]. destruct Hn. exists k. unfold get_collection in *. by rewrite E1, E3 in Hk.
    + rewrite <- validate_spec. rewrite <- Hv. by destruct (is_validation e).
    + destruct (is_validation e); auto.
    + done.
  - by apply create_fail in E as ([e [=]] & _).
Qed.
Print Assumptions C47_post_status.

Theorem C47_get_status : forall D n, (forall i, db_colls D !! n = Some i -> i < length (db_handles D)) -> exists code body, rest_get n D = Some (code, body) /\
  (code = 200%N <-> exists h, names_to D n h /\ closed (hd_st h) = false) /\
  (code = 400%N <-> db_closed D = false /\ ~ resolves D n) /\
  (code = 200%N \/ code = 400%N \/ code = 500%N).
Proof.
  intros D n Hidx. unfold rest_get, names_to, resolves, get_collection. destruct (db_closed D).
  { eexists _, _. split; [done|]. cbn. split_and!; [split; [done|by intros (h & (i & ? & _) & _)]|split; [done|by intros []]|auto]. }
  destruct (db_colls D !! n) as [i|] eqn:Ec.
  2:{ eexists _, _. split; [done|]. cbn. split_and!; [split; [done|by intros (h & (j & ? & _) & _)]|split; [|done]; intros _; split; [done|by intros [? ?]]|auto]. }
  destruct (lookup_lt_is_Some_2 (db_handles D) i (Hidx _ eq_refl)) as [h Hh]. rewrite Hh. cbn [mbind option_bind]. unfold get_config.
  destruct (closed (hd_st h)) eqn:Ecl.
  - eexists _, _. split; [done|]. split_and!; [|split; [done|intros [_ H]; destruct H; by exists i]|auto]. split; [done|].
    intros (h2 & (j & [= <-] & Hh2) & Hcl2). rewrite Hh in Hh2. injection Hh2 as <-. by rewrite Ecl in Hcl2.
  - eexists _, _. split; [done|]. split_and!; [|split; [done|intros [_ H]; destruct H; by exists i]|auto]. split; [|done]. intros _. exists h. split; [by exists i|done].
Qed.
Print Assumptions C47_get_status.

Theorem C47_delete_status : forall D n D' resp, rest_delete n D = (D', resp) -> exists code body, resp = Some (code, body) /\
  (code = 200%N <-> resolves D n /\ ~ resolves D' n) /\
  (code = 400%N <-> db_closed D = false /\ ~ resolves D n) /\
  (code = 200%N \/ code = 400%N \/ code = 500%N) /\
  (code <> 200%N -> D' = D).
Proof.
  intros D n D' resp H. unfold rest_delete in H. destruct (delete_collection n D) as [D1 r] eqn:E. injection H as <- <-.
  unfold resolves. destruct r as [[]|e|p].
  - apply delete_val in E as (Hop & [i Hi] & _ & ->). eexists _, _. split; [done|]. unfold get_collection. rewrite Hop. cbn [db_closed db_colls].
    rewrite Hi, lookup_delete. split_and!; [|split; [done|intros [_ Hx]; destruct Hx; by exists i]|auto|done].
    split; [|done]. intros _. split; [by exists i|by intros [? ?]].
  - eexists _, _. split; [done|]. pose proof (delete_fail _ _ _ _ E ltac:(done)) as [-> _]. unfold err_response, get_collection. unfold delete_collection in E.
    split_and!; [split; [by destruct (is_validation e)|by intros []]| |destruct (is_validation e); auto|done].
    destruct (db_closed D); [injection E as <-; split; [done|by intros []]|]. destruct (db_colls D !! n) as [i|].
    + destruct (existsb _ _); [done|]. injection E as <-. cbn. split; [done|]. intros [_ H]. destruct H. by exists i.
    + injection E as <-. cbn. split; [|done]. intros _. split; [done|by intros [? ?]].
  - by apply delete_fail in E as [_ [e [=]]].
Qed.
Print Assumptions C47_delete_status.
(** All three outcomes of each request occur in databases reached by calls. *)
Example C47_case : exists D D2 b1 b2 b3 b4,
  rest_add (ok_cfg "x" []) fresh_db = (D, Some (201%N, b1)) /\ (rest_add (ok_cfg "x" []) D).2 = Some (500%N, b2) /\
  (rest_add (ok_cfg "" []) D).2 = Some (400%N, b3) /\ rest_delete "x" D = (D2, Some (200%N, b4)) /\
  fst <$> (rest_delete "x" D2).2 = Some 400%N /\ fst <$> rest_get "x" D = Some 200%N /\ fst <$> rest_get "x" D2 = Some 400%N /\
  fst <$> rest_get "x" (db_close D).1 = Some 500%N /\ fst <$> (rest_delete "x" (db_close D).1).2 = Some 500%N.
Proof.
  eexists _, _, _, _, _, _. split; [vm_compute; reflexivity|]. split; [vm_compute; reflexivity|]. split; [vm_compute; reflexivity|].
  split; [vm_compute; reflexivity|]. split; [vm_compute; reflexivity|]. split; [vm_compute; reflexivity|]. split; [vm_compute; reflexivity|].
  split; vm_compute; reflexivity.
Qed.

(** ** C48 REST returns the configuration that was posted *)
Theorem C48_get_after_post_partial : forall D c D' body, rest_add c D = (D', Some (201%N, body)) ->
  rest_get (cf_name c) D' =
    Some (200%N, PConfig (Config (cf_name c) (cf_index c) (cf_embedder c) (cf_data c) (cf_params c) (cf_embcfg c) [])) /\
  (cf_maps c = [] -> rest_get (cf_name c) D' = Some (200%N, PConfig c)).
Proof.
  intros D c D' body H. unfold rest_add in H. destruct (create_collection c D) as [D1 r] eqn:E. injection H as <- H.
  destruct r as [i|e|p]; [| |done]. 2:{ unfold err_response in H. by destruct (is_validation e). }
  pose proof (C45_created_collection_is_empty _ _ _ _ E) as ((j & Hj & Hh) & _).
  assert (G : rest_get (cf_name c) D1 = Some (200%N, PConfig (Config (cf_name c) (cf_index c) (cf_embedder c) (cf_data c) (cf_params c) (cf_embcfg c) []))).
  { unfold rest_get. rewrite Hj, Hh. done. }
  split; [done|]. intros Em. rewrite G. do 3 f_equal. destruct c; cbn in *. by subst.
Qed.
Print Assumptions C48_get_after_post_partial.
Theorem C48_get_after_post_refuted : exists c D body c', documented c /\ plain c /\ rest_add c fresh_db = (D, Some (201%N, body)) /\
  rest_get (cf_name c) D = Some (200%N, PConfig c') /\ c' <> c.
Proof.
  exists (ok_cfg "x" ["a"%string]). eexists _, _, _. split; [by apply ok_documented|]. split; [apply ok_plain; [cbn; intuition discriminate|done..]|].
  split; [vm_compute; reflexivity|]. split; [vm_compute; reflexivity|]. done.
Qed.
Print Assumptions C48_get_after_post_refuted.

(** ** C49 Parameter validation accepts exactly the usable parameters *)
Theorem C49_validation_exact : forall c,
  (validate c = Val tt <-> documented c) /\ (~ documented c -> exists e, validate c = Err e) /\
  forall D, db_closed D = false -> ~ documented c -> exists e, create_collection c D = (D, Err (EValidation e)).
Proof.
  intros c. rewrite <- validate_spec. split; [done|].
  assert (H : validate c <> Val tt -> exists e, validate c = Err e).
  { destruct (validate c) as [[]|e|p] eqn:E; [done|by exists e|by apply validate_no_pan in E]. }
  split; [done|]. intros D Hop Hn. rewrite <- validate_spec in Hn. destruct (H Hn) as [e He]. exists e. unfold create_collection. by rewrite Hop, He.
Qed.
Print Assumptions C49_validation_exact.

(** Not every accepted configuration is usable: a DiskANN collection can never
    be created, and with M > 2*MMax inserting panics after a few objects. *)
Theorem C49_usable_refuted :
  (exists c, documented c /\ forall D D' i, create_collection c D <> (D', Val i)) /\
  (exists c env_embed J maxv workers fuel l D i call, documented c /\ plain c /\
     dhist env_embed J maxv workers fuel fresh_db l D /\ created l !! cf_name c = Some c /\ VUse i call (RIns (Pan PIndex)) ∈ l).
Proof.
  split.
  - exists (ann_cfg "v"). split; [split_and!; try done; by left|]. intros D D' i H. by apply create_val in H as (_ & _ & _ & _ & H & _).
  - set (c := Config "x" "hnsw" "" "text" (IPOk bad_raw) JNull []). exists c, no_embed, ex_json, 65536%N, 2, 50.
    set (sc := [QCreate c; QUse 0 (CInsert true 0 (ob0 0)) 0; QUse 0 (CInsert true 0 (ob0 1065353216)) 0; QUse 0 (CInsert true 0 (ob0 1073741824)) 0;
      QUse 0 (CInsert true 0 (ob0 1077936128)) 0; QUse 0 (CInsert true 0 (ob0 1082130432)) 0]).
    destruct (drun no_embed ex_json 65536 2 50 sc fresh_db) as [[l D]|] eqn:E; [|exfalso; vm_compute in E; discriminate].
    assert (exists call, created l !! cf_name c = Some c /\ VUse 0 call (RIns (Pan PIndex)) ∈ l) as (call & H1 & H2).
    { exists (CInsert true 0 (ob0 1082130432)). assert ((fun '(l, D) => (created l !! "x"%string, last l)) <$> drun no_embed ex_json 65536 2 50 sc fresh_db =
        Some (Some c, Some (VUse 0 (CInsert true 0 (ob0 1082130432)) (RIns (Pan PIndex))))) as H by (vm_compute; reflexivity).
      rewrite E in H. cbn [fmap option_fmap option_map] in H. injection H as H1 H2. split; [exact H1|]. by apply last_Some_elem_of. }
    apply drun_ok in E. exists l, D, 0, call. split; [clear E H1 H2; split_and!; try done; [|by left]; right; split; [done|]; exists bad_raw; split_and!; try done; by right|].
    split; [clear E H1 H2; split; try done; [cbn; intuition discriminate|by left]|]. split; [exact E|]. split; [exact H1|exact H2].
Qed.
Print Assumptions C49_usable_refuted.

(** With M at most 2*MMax the parameters are good ones: the collection can be
    created under any free plain name, and used one call at a time without a
    panic (C59), as long as vectors have one length the distance supports. *)
Theorem C49_usable_partial : forall c r env_embed J maxv workers fuel n B h s call,
  documented c -> plain c -> cf_params c = IPOk r -> (r_m r <= 2 * r_mmax r)%Z ->
  (r_m r < 2 ^ 32)%Z -> (2 * r_mmax r < 2 ^ 32)%Z -> (maxv < 2 ^ 32)%N -> json_total J ->
  (r_dist r = "dot_product"%string -> n mod 8 = 0) -> B <= fuel -> (N.of_nat B < 2 ^ 64)%N ->
  exists C, cparams_of env_embed J maxv workers fuel c = Some C /\
    (exists D i, create_collection c fresh_db = (D, Val i) /\ names_to D (cf_name c) (Handle c empty_st)) /\
    (hist C empty_st h s -> Forall (tidy_ev C n) h -> fed_first h -> log_small C h s ->
     hist_inserts h + length (submitted call) <= B -> tidy C n call -> (is_search call = true -> acked_ids h <> []) ->
     (exists s' rp, call_run C s call s' rp) /\ forall s' rp, call_run C s call s' rp -> reply_no_pan rp).
Proof.
  intros c r env_embed J maxv workers fuel n B h s call Hd Hp Er Hdeg Hm1 Hm2 Hmax HJ Hdim HB HB64.
  eexists. split; [unfold cparams_of; rewrite Er; reflexivity|]. split.
  - destruct (create_ok c fresh_db Hp) as [D E]; try done; [by apply validate_spec|cbn; by apply not_elem_of_nil| |].
    + cbn. apply lookup_singleton_None. intros E. by apply (pl_meta _ Hp).
    + exists D, 0. split; [done|]. destruct (C45_created_collection_is_empty _ _ _ _ E) as [Hx _]. exact Hx.
  - intros Hh Ht Hff Hl Hn Hc Hse.
    destruct Hd as (_ & [Hi|(_ & r' & Er' & H1 & H2 & H3 & H4 & H5)] & _); [by rewrite (pl_index _ Hp) in Hi|].
    rewrite Er in Er'. injection Er' as <-.
    match type of Hh with hist ?C _ _ _ => assert (use_ok C n B) as U end; [|destruct (C59_sequential_use_never_panics _ n B h s call U Hh Ht Hff Hl Hn Hc Hse) as (_ & R1 & R2 & _); done].
    split; cbn [cp_h cp_fuel cp_json cp_maxval]; try done.
    + unfold hparams_of. split; cbn; lia.
    + unfold hparams_of. cbn. destruct H5 as [H5|H5]; rewrite H5; cbn; [by apply Hdim|done].
    + split; cbn; [done|]. unfold hparams_of. cbn. lia.
Qed.
Print Assumptions C49_usable_partial.
