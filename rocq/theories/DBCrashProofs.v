(** What a database is after any history with crashes: the entries of its
    collections, each with the history it has had by itself. *)
From stdpp Require Import relations.
From Verif Require Import GoBase FloatModel ProgModel StateModel WalModel HnswModel StoreModel CollModel CallModel DBModel.
From Verif Require Import ProofBase CallProofs HistProofs DBProofs PropDB DBCrashModel.
Open Scope nat_scope.

(** ** Reopening, position by position *)
Lemma open_rows_seq rows : forall D D', NoDup (names rows) -> open_rows rows D = Val D' ->
  exists hs, db_handles D' = db_handles D ++ hs /\ length hs = length rows /\
  (forall k r, rows !! k = Some r -> db_colls D' !! cf_name (row_cfg r) = Some (length (db_handles D) + k) /\
     exists s, hs !! k = Some (Handle (row_config r) s) /\
       new_collection (row_config r) (db_files D !! cf_name (row_cfg r)) = Val (Handle (row_config r) s)).
Proof.
  induction rows as [|r rows IH]; intros D D' Hnd H; cbn [open_rows] in H.
  { apply Val_inj in H as <-. exists []. rewrite app_nil_r. split_and!; [done..|]. intros k r Hk. by rewrite lookup_nil in Hk. }
  pose proof Hnd as Hnd0. cbn in Hnd. apply NoDup_cons in Hnd as [Hr Hnd]. change (cf_name (row_config r)) with (cf_name (row_cfg r)) in H.
  destruct (new_collection _ _) as [h|e|p] eqn:Eh; [|done..]. cbn [mbind out_bind] in H.
  assert (exists s, h = Handle (row_config r) s) as [s ->].
  { apply new_collection_val in Eh as (_ & _ & s & _ & ->). by exists s. }
  destruct (IH _ _ Hnd H) as (hs & H1 & H2 & H3). destruct (open_rows_val _ _ _ Hnd H) as (_ & _ & H4 & _).
  cbn [db_rows db_colls db_files db_handles db_closed] in *. exists (Handle (row_config r) s :: hs). split_and!.
  - by rewrite H1, <- app_assoc.
  - cbn. by rewrite H2.
  - intros [|k] r2 Hk; cbn in Hk.
    + injection Hk as <-. destruct (H4 _ Hr) as [E _]. rewrite lookup_insert in E. rewrite Nat.add_0_r. split; [done|]. exists s. by split.
    + destruct (H3 k r2 Hk) as (E1 & s2 & E2 & E3). rewrite app_length in E1. cbn in E1. split; [rewrite E1; f_equal; lia|]. exists s2. split; [done|].
      rewrite lookup_delete_ne in E3; [done|]. intros E. apply Hr. rewrite E. apply elem_of_list_fmap. exists r2. split; [done|]. by eapply elem_of_list_lookup_2.
Qed.

(** ** The entries of a database *)
(** A collection: the configuration it was created with, the number of its
    handle, and what has happened to it. *)
Record entry := Entry { en_cfg : config; en_idx : nat; en_hist : list event }.
Definition en_name (e : entry) : string := cf_name (en_cfg e).
Definition add_ev (ev : event) (e : entry) : entry := Entry (en_cfg e) (en_idx e) (en_hist e ++ [ev]).
(** Open numbers the handles anew. *)
Definition renumber (P : list entry) : list entry := imap (fun k e => Entry (en_cfg e) k (en_hist e)) P.
Definition drop_name (n : string) (P : list entry) : list entry := base.filter (fun e => en_name e <> n) P.
Definition cut_event (cuts : gmap nat (call * nat)) (i : nat) : event :=
  match cuts !! i with Some (c, n) => EvCrash c n | None => EvRestart end.
(** What an event means to the collections of a database. *)
Definition entries_step (P : list entry) (e : kev) : list entry :=
  match e with
  | KDo (VCreate c (Val i)) => P ++ [Entry c i []]
  | KDo (VDelete n (Val _)) => drop_name n P
  | KDo (VUse i c r) => (fun e => if decide (en_idx e = i) then add_ev (EvCall c r) e else e) <$> P
  | KDo VReopen => renumber (add_ev EvRestart <$> P)
  | KCrash cuts op =>
      let P1 := match op with Some (OpDelete n, true) => drop_name n P | _ => P end in
      let P2 := (fun e => add_ev (cut_event cuts (en_idx e)) e) <$> P1 in
      renumber match op with Some (OpCreate c, true) => P2 ++ [Entry c 0 [EvRestart]] | _ => P2 end
  | _ => P
  end.
Definition entries (l : list kev) : list entry := foldl entries_step [] l.
Lemma entries_snoc l e : entries (l ++ [e]) = entries_step (entries l) e.
Proof. unfold entries. by rewrite foldl_app. Qed.
(** The names whose directory may have been left by a deletion that was cut short. *)
Definition dirty_step (S : gset string) (e : kev) : gset string :=
  match e with KCrash _ (Some (OpDelete n, true)) => {[n]} ∪ S | _ => S end.
Definition dirty (l : list kev) : gset string := foldl dirty_step ∅ l.
Lemma dirty_snoc l e : dirty (l ++ [e]) = dirty_step (dirty l) e.
Proof. unfold dirty. by rewrite foldl_app. Qed.

(** Names are ordinary, and none is used again after its deletion was cut short. *)
Definition names_ok_ev (S : gset string) (e : kev) : Prop :=
  match e with
  | KDo (VCreate c _) | KCrash _ (Some (OpCreate c, _)) => plain c /\ cf_name c ∉ S
  | _ => True
  end.
Definition names_ok (l : list kev) : Prop := forall l1 e l2, l = l1 ++ e :: l2 -> names_ok_ev (dirty l1) e.
Lemma names_ok_snoc l e : names_ok (l ++ [e]) -> names_ok l /\ names_ok_ev (dirty l) e.
Proof.
  intros H. split; [|by apply (H l e [])]. intros l1 e1 l2 ->. apply (H l1 e1 (l2 ++ [e])). by rewrite <- app_assoc.
Qed.

(** Configurations that come back unchanged from the metadata. *)
Definition lean (c : config) : Prop := plain c /\ faithful c /\ cf_maps c = [].
Lemma lean_stored c : lean c -> validate c = Val tt -> stored c = c /\ reloaded c = c.
Proof.
  intros (Hp & Hf & Hm) Hv. pose proof (faithful_stored c Hf Hv (pl_index _ Hp)) as E. unfold stored, reloaded. rewrite E.
  destruct c; cbn in *. by subst.
Qed.

(** ** One collection by itself *)
(** The event ends with the collection being opened again. *)
Definition reopening (e : event) : bool := match e with EvCall _ _ => false | EvRestart | EvCrash _ _ => true end.
Definition reopened (h : list event) : bool := existsb reopening h.
(** The configuration a collection made with [c] works with after [h]. *)
Definition cfg_now (c : config) (h : list event) : config := if reopened h then reloaded c else c.
Section life.
  Context (env_embed : string -> jval -> embedder) (J : json) (maxv : N) (workers fuel : nat).
  Notation params c := (cparams_of env_embed J maxv workers fuel c).
  (** A history of a collection made with [c] that nothing else interferes with:
      every event happens under the configuration in force. *)
  Inductive life (c : config) : list event -> st -> Prop :=
  | LifeNil : life c [] empty_st
  | LifeSnoc h e s1 s2 C : life c h s1 -> params (cfg_now c h) = Some C -> ev_step C s1 e s2 -> life c (h ++ [e]) s2.
  Lemma params_now c h : plain c -> validate c = Val tt -> exists C, params (cfg_now c h) = Some C.
  Proof using.
    intros Hp Hv. apply validate_spec in Hv as (_ & [Hx|(_ & r & Ep & _)] & _); [by rewrite (pl_index _ Hp) in Hx|].
    unfold cparams_of, cfg_now. destruct (reopened h); cbn [reloaded cf_params]; rewrite Ep; by eexists.
  Qed.
  Lemma reopened_snoc h e : reopened (h ++ [e]) = reopened h || reopening e.
  Proof using. clear. unfold reopened. rewrite existsb_app. cbn. by rewrite orb_false_r. Qed.
  Lemma life_lean c h s C : lean c -> validate c = Val tt -> params c = Some C -> life c h s -> hist C empty_st h s.
  Proof using.
    intros Hl Hv HC. induction 1 as [|h e s1 s2 C2 H IH HC2 Hs]; [constructor|]. econstructor; [done|].
    destruct (lean_stored _ Hl Hv) as [_ Er]. assert (cfg_now c h = c) as E by (unfold cfg_now; by destruct (reopened h)). rewrite E, HC in HC2. by injection HC2 as <-.
  Qed.
  (** Up to the first reopening everything happens under one configuration, afterwards under another. *)
  Lemma life_split c h s C1 C2 : params c = Some C1 -> params (reloaded c) = Some C2 -> life c h s ->
    exists h1 h2 s1, h = h1 ++ h2 /\ hist C1 empty_st h1 s1 /\ hist C2 s1 h2 s /\ (reopened h1 = false -> h2 = []).
  Proof using.
    intros HC1 HC2. induction 1 as [|h e s1 s2 C H (h1 & h2 & sa & -> & H1 & H2 & H3) HC Hs].
    - exists [], [], empty_st. split_and!; try done; constructor.
    - unfold cfg_now in HC. destruct (reopened h1) eqn:Er.
      + assert (reopened (h1 ++ h2) = true) as E by (unfold reopened in *; by rewrite existsb_app, Er). rewrite E, HC2 in HC. injection HC as <-.
        exists h1, (h2 ++ [e]), sa. split_and!; [by rewrite app_assoc|done| |by rewrite Er]. by econstructor.
      + rewrite (H3 eq_refl) in *. rewrite app_nil_r, Er, HC1 in HC. injection HC as <-. assert (sa = s1) as -> by (inversion H2 as [|hh ? ? ? ? ? E]; [done|by destruct hh]).
        exists (h1 ++ [e]), [], s2. rewrite !app_nil_r. split_and!; [done|by econstructor|constructor|done].
  Qed.
End life.

Section inv.
  Context (env_embed : string -> jval -> embedder) (J : json) (maxv : N) (workers fuel : nat).
  Notation params c := (cparams_of env_embed J maxv workers fuel c).
  Notation khist := (khist env_embed J maxv workers fuel).
  Notation kstep := (kstep env_embed J maxv workers fuel).

  (** What the collection of [e] has been through, by itself. *)
  Definition lived (e : entry) (s : st) : Prop := life env_embed J maxv workers fuel (en_cfg e) (en_hist e) s.

  Record KI (D : db) (P : list entry) (S : gset string) : Prop := MkKI {
    ki_open : db_closed D = false;
    ki_rows : row_cfg <$> db_rows D = (fun e => stored (en_cfg e)) <$> P;
    ki_names : NoDup (en_name <$> P);
    ki_idx : NoDup (en_idx <$> P);
    ki_colls : forall n i, db_colls D !! n = Some i <-> exists e, e ∈ P /\ en_name e = n /\ en_idx e = i;
    ki_ent : forall e, e ∈ P -> plain (en_cfg e) /\ validate (en_cfg e) = Val tt /\ en_name e ∉ S;
    ki_hd : forall e, e ∈ P -> exists h, db_handles D !! en_idx e = Some h /\
      hd_cfg h = cfg_now (en_cfg e) (en_hist e) /\ lived e (hd_st h);
    ki_files : forall n, is_Some (db_files D !! n) -> n = "metadata.db"%string \/ n ∈ S
  }.

  Lemma names_of rows P : row_cfg <$> rows = (fun e => stored (en_cfg e)) <$> P -> names rows = en_name <$> P.
  Proof using.
    clear. intros H. unfold names. change (fun r => cf_name (row_cfg r)) with (cf_name ∘ row_cfg). rewrite list_fmap_compose, H, <- list_fmap_compose. done.
  Qed.
  Lemma drop_names n P : en_name <$> drop_name n P = base.filter (fun m => m <> n) (en_name <$> P).
  Proof using.
    clear. induction P as [|e P IH]; [done|]. unfold drop_name in *. rewrite fmap_cons, !filter_cons. destruct (decide (en_name e <> n)); [|done].
    rewrite fmap_cons. by rewrite IH.
  Qed.
  Lemma drop_elem n P e : e ∈ drop_name n P <-> e ∈ P /\ en_name e <> n.
  Proof using. clear. unfold drop_name. rewrite elem_of_list_filter. tauto. Qed.
  Lemma drop_rows n rows P : row_cfg <$> rows = (fun e => stored (en_cfg e)) <$> P ->
    row_cfg <$> List.filter (fun r => negb (String.eqb (cf_name (row_cfg r)) n)) rows = (fun e => stored (en_cfg e)) <$> drop_name n P.
  Proof using.
    clear. revert P. induction rows as [|r rows IH]; intros [|e P]; try done. rewrite !fmap_cons. intros [= H1 H2].
    unfold drop_name. rewrite filter_cons. cbn [List.filter].
    assert (cf_name (row_cfg r) = en_name e) as E by (by rewrite H1).
    destruct (String.eqb_spec (cf_name (row_cfg r)) n) as [E2|E2]; rewrite E in E2; cbn [negb].
    - destruct (decide (en_name e <> n)); [done|]. by apply IH.
    - destruct (decide (en_name e <> n)); [|done]. rewrite !fmap_cons. f_equal; [done|]. by apply IH.
  Qed.
  Lemma NoDup_drop n P : NoDup (en_name <$> P) -> NoDup (en_name <$> drop_name n P).
  Proof using. clear. intros H. rewrite drop_names. by apply NoDup_filter. Qed.
  Lemma NoDup_drop_idx n P : NoDup (en_idx <$> P) -> NoDup (en_idx <$> drop_name n P).
  Proof using.
    clear. induction P as [|e P IH]; [done|]. rewrite fmap_cons. intros [H1 H2]%NoDup_cons. unfold drop_name in *. rewrite filter_cons.
    destruct (decide (en_name e <> n)); [|by apply IH]. rewrite fmap_cons. apply NoDup_cons. split; [|by apply IH].
    intros Hx. apply H1. apply elem_of_list_fmap in Hx as (e2 & -> & H3). apply elem_of_list_fmap. exists e2. split; [done|]. by apply elem_of_list_filter in H3 as [_ H3].
  Qed.
  Lemma fmap_keep {B} (g : entry -> B) f (P : list entry) : (forall e, g (f e) = g e) -> g <$> (f <$> P) = g <$> P.
  Proof using. clear. intros H. rewrite <- list_fmap_compose. apply list_fmap_ext. intros i e _. apply H. Qed.

  Lemma KI_rows_names D P S : KI D P S -> names (db_rows D) = en_name <$> P.
  Proof using. intros H. by apply names_of, H. Qed.
  Lemma KI_nodup D P S : KI D P S -> NoDup (names (db_rows D)).
  Proof using. intros H. rewrite (KI_rows_names _ _ _ H). apply H. Qed.

  (** Creating a collection under an ordinary name that is not dirty: it works
      unless it is refused, and then nothing changes. *)
  Lemma create_cases D P S c D' r : KI D P S -> plain c -> cf_name c ∉ S -> create_collection c D = (D', r) ->
    (D' = D /\ exists e, r = Err e) \/ exists i, r = Val i.
  Proof using.
    intros HK Hp HS Hc. destruct r as [i|e|p]; [right; by eexists|left|].
    - pose proof Hc as Hc2. apply create_fail in Hc2 as (_ & _ & _ & _ & Hx); [|done]. split; [|by eexists]. destruct Hx as [->|[Hrw Hx]]; [done|].
      exfalso. rewrite (KI_rows_names _ _ _ HK) in Hx.
      destruct (db_colls D !! cf_name c) as [j|] eqn:Ec.
      { apply (ki_colls _ _ _ HK) in Ec as (e2 & He2 & Hn & _). apply Hx. apply elem_of_list_fmap. by exists e2. }
      destruct (validate c) as [[]|e2|p2] eqn:Ev.
      + destruct (create_ok c D Hp Ev (ki_open _ _ _ HK) Ec) as [D4 E4]; [by rewrite (KI_rows_names _ _ _ HK)| |by rewrite Hc in E4].
        destruct (db_files D !! cf_name c) eqn:Ef; [|done]. destruct (ki_files _ _ _ HK (cf_name c)) as [E|E]; [by rewrite Ef| |done].
        by destruct (pl_meta _ Hp).
      + unfold create_collection in Hc. rewrite (ki_open _ _ _ HK), Ev in Hc. injection Hc as <- <-.
        apply (f_equal length) in Hrw. rewrite app_length in Hrw. cbn in Hrw. lia.
      + by apply validate_no_pan in Ev.
    - by apply create_fail in Hc as ([e [=]] & _).
  Qed.

  (** ** Open *)
  Definition dir_of (f : option fnode) : disk := match f with Some (FDir d) => d | _ => empty_disk end.
  Lemma open_KI D1 Q S D' :
    row_cfg <$> db_rows D1 = (fun e => stored (en_cfg e)) <$> Q -> NoDup (en_name <$> Q) ->
    (forall e, e ∈ Q -> plain (en_cfg e) /\ validate (en_cfg e) = Val tt /\ en_name e ∉ S) ->
    (forall e, e ∈ Q -> reopened (en_hist e) = true) ->
    (forall e s, e ∈ Q -> reopen (dir_of (dd_files (db_disk D1) !! en_name e)) = Val s -> lived e s) ->
    (forall n, is_Some (dd_files (db_disk D1) !! n) -> n = "metadata.db"%string \/ n ∈ S \/ n ∈ en_name <$> Q) ->
    db_open (db_disk D1) = Val D' -> KI D' (renumber Q) S.
  Proof using.
    intros Hrw Hnd Hent Hreo Hli Hfi Ho. pose proof (names_of _ _ Hrw) as Hnm. assert (Hnd2 : NoDup (names (db_rows D1))) by (by rewrite Hnm).
    unfold db_open in Ho. change (dd_rows (db_disk D1)) with (db_rows D1) in Ho. change (dd_next (db_disk D1)) with (db_next D1) in Ho.
    destruct (open_rows_val _ _ _ Hnd2 Ho) as (H1 & _ & H3 & H4 & _ & H6).
    destruct (open_rows_seq _ _ _ Hnd2 Ho) as (hs & G1 & G2 & G3). cbn [db_rows db_colls db_files db_handles db_closed length Nat.add app] in *.
    assert (Hlk : forall k e, Q !! k = Some e -> exists r, db_rows D1 !! k = Some r /\ row_cfg r = stored (en_cfg e)).
    { intros k e Hk. assert (((fun e => stored (en_cfg e)) <$> Q) !! k = Some (stored (en_cfg e))) as E by (by rewrite list_lookup_fmap, Hk).
      rewrite <- Hrw, list_lookup_fmap in E. destruct (db_rows D1 !! k) as [r|]; [|done]. exists r. split; [done|]. by injection E. }
    assert (Hre : forall k e, renumber Q !! k = Some e -> exists e0, Q !! k = Some e0 /\ e = Entry (en_cfg e0) k (en_hist e0)).
    { intros k e. unfold renumber. rewrite list_lookup_imap. destruct (Q !! k) as [e0|]; [|done]. intros [= <-]. by exists e0. }
    assert (Hnr : en_name <$> renumber Q = en_name <$> Q).
    { unfold renumber. apply list_eq. intros k. rewrite !list_lookup_fmap, list_lookup_imap. by destruct (Q !! k). }
    split.
    - by apply H6.
    - rewrite H1, Hrw. apply list_eq. intros k. unfold renumber. rewrite !list_lookup_fmap, list_lookup_imap. by destruct (Q !! k).
    - by rewrite Hnr.
    - assert (en_idx <$> renumber Q = seq 0 (length Q)) as ->; [|apply NoDup_seq]. apply list_eq. intros k. unfold renumber.
      rewrite list_lookup_fmap, list_lookup_imap. destruct (Q !! k) as [e|] eqn:E.
      + cbn. rewrite lookup_seq_lt; [done|]. by eapply lookup_lt_Some.
      + cbn. symmetry. apply lookup_seq_ge. by apply lookup_ge_None in E.
    - intros n i. split.
      + intros Hi. destruct (decide (n ∈ names (db_rows D1))) as [Hin|Hin].
        * apply elem_of_list_fmap in Hin as (r & -> & Hr). apply elem_of_list_lookup in Hr as [k Hk].
          destruct (G3 k r Hk) as [E _]. rewrite E in Hi. injection Hi as <-.
          assert ((row_cfg <$> db_rows D1) !! k = Some (row_cfg r)) as E2 by (by rewrite list_lookup_fmap, Hk).
          rewrite Hrw, list_lookup_fmap in E2. destruct (Q !! k) as [e|] eqn:Eq; [|done]. injection E2 as E2.
          exists (Entry (en_cfg e) k (en_hist e)). split_and!; [|by rewrite <- E2|done].
          apply elem_of_list_lookup. exists k. unfold renumber. by rewrite list_lookup_imap, Eq.
        * destruct (H3 n Hin) as [E _]. rewrite Hi in E. by rewrite lookup_empty in E.
      + intros (e & [k He]%elem_of_list_lookup & <- & <-). apply Hre in He as (e0 & He & ->). destruct (Hlk _ _ He) as (r & Hr & Er).
        destruct (G3 k r Hr) as [E _]. rewrite Er in E. exact E.
    - intros e [k He]%elem_of_list_lookup. apply Hre in He as (e0 & He & ->). apply (Hent e0). by eapply elem_of_list_lookup_2.
    - intros e [k He]%elem_of_list_lookup. apply Hre in He as (e0 & He & ->). destruct (Hlk _ _ He) as (r & Hr & Er).
      destruct (G3 k r Hr) as (_ & s & E2 & E3). exists (Handle (row_config r) s). cbn [en_idx en_cfg hd_cfg hd_st]. rewrite G1. cbn [en_hist]. split_and!; [done| |].
      { unfold cfg_now, row_config. rewrite (Hreo e0) by (by eapply elem_of_list_lookup_2). by rewrite Er. }
      apply new_collection_val in E3 as (_ & _ & s2 & Hs2 & [= ->]). rewrite Er in Hs2.
      apply (Hli e0 s2); [by eapply elem_of_list_lookup_2|exact Hs2].
    - intros n Hn. destruct (decide (n ∈ names (db_rows D1))) as [Hin|Hin].
      + rewrite (H4 n Hin) in Hn. by destruct Hn.
      + destruct (H3 n Hin) as [_ E]. rewrite E in Hn. destruct (Hfi n Hn) as [?|[?|Hx]]; [by left|by right|].
        by rewrite <- Hnm in Hx.
  Qed.
  Lemma open_succeeds D1 Q :
    row_cfg <$> db_rows D1 = (fun e => stored (en_cfg e)) <$> Q -> NoDup (en_name <$> Q) ->
    (forall e, e ∈ Q -> plain (en_cfg e) /\ dd_files (db_disk D1) !! en_name e <> Some FFile) ->
    (exists D', db_open (db_disk D1) = Val D') <-> (forall e, e ∈ Q -> exists s, reopen (dir_of (dd_files (db_disk D1) !! en_name e)) = Val s).
  Proof using.
    clear. intros Hrw Hnd Hent. pose proof (names_of _ _ Hrw) as Hnm. assert (Hnd2 : NoDup (names (db_rows D1))) by (by rewrite Hnm).
    unfold db_open. change (dd_rows (db_disk D1)) with (db_rows D1). change (dd_next (db_disk D1)) with (db_next D1). split.
    - intros [D' Ho] e He. destruct (open_rows_val _ _ _ Hnd2 Ho) as (_ & H2 & _). cbn [db_files] in H2.
      assert (stored (en_cfg e) ∈ row_cfg <$> db_rows D1) as Hin by (rewrite Hrw; apply elem_of_list_fmap; by exists e).
      apply elem_of_list_fmap in Hin as (r & Er & Hr). destruct (H2 r Hr) as (i & s & _ & _ & E).
      apply new_collection_val in E as (_ & _ & s2 & Hs2 & _). rewrite <- Er in Hs2. exists s2. exact Hs2.
    - intros H. apply open_rows_ok; [done|]. intros r Hr. cbn [db_files].
      assert (row_cfg r ∈ (fun e => stored (en_cfg e)) <$> Q) as Hin by (rewrite <- Hrw; apply elem_of_list_fmap; by exists r).
      apply elem_of_list_fmap in Hin as (e & Er & He). destruct (H e He) as [s Hs]. destruct (Hent e He) as [Hp Hf].
      exists (Handle (row_config r) s). change (cf_name (row_config r)) with (cf_name (row_cfg r)). rewrite Er. change (cf_name (stored (en_cfg e))) with (en_name e).
      unfold dir_of in Hs. destruct (dd_files (db_disk D1) !! en_name e) as [[d|]|]; [|done|].
      + apply new_collection_ok; [|done]. cbn. rewrite Er. apply Hp.
      + unfold new_collection. cbn [d_cfile empty_disk]. assert (exists z, open_counter (d_cfile empty_disk) = Val z) as [z E] by (by eexists).
        cbn [d_cfile empty_disk] in E. rewrite E. cbn [mbind out_bind]. cbn [row_config cf_index]. rewrite Er. cbn [stored cf_index]. rewrite (pl_index _ Hp). cbn [String.eqb].
        rewrite Hs. done.
  Qed.

  (** How far a creation under an ordinary, free name may have got. *)
  Lemma create_cut_shape D c b D1 : plain c -> db_closed D = false -> db_files D !! cf_name c = None ->
    (forall n i, db_colls D !! n = Some i -> n ∈ names (db_rows D) /\ i < length (db_handles D)) -> create_cut c D b D1 ->
    if b then validate c = Val tt /\ cf_name c ∉ names (db_rows D) /\ db_rows D1 = db_rows D ++ [Row (db_next D) (stored c)] /\
      (forall n, n <> cf_name c -> dd_files (db_disk D1) !! n = dd_files (db_disk D) !! n) /\ dir_of (dd_files (db_disk D1) !! cf_name c) = empty_disk /\
      dd_files (db_disk D1) !! cf_name c <> Some FFile
    else D1 = D.
  Proof using.
    clear. intros Hpl Hop Hnofile Hdom Hcut.
    assert (Hsave : forall D2, meta_save c D = Some D2 -> cf_name c ∉ names (db_rows D) /\
        D2 = DB (db_rows D ++ [Row (db_next D) (stored c)]) (S (db_next D)) (db_files D) (db_colls D) (db_handles D) (db_closed D)).
    { intros D2. unfold meta_save. destruct (existsb (fun r => String.eqb (cf_name (row_cfg r)) (cf_name c)) (db_rows D)) eqn:Ex.
      { destruct (cf_params c), (negb (is_object (cf_embcfg c))); done. }
      intros E. split; [by apply existsb_names_false|]. destruct (cf_params c) as [| |r] eqn:Ep, (negb (is_object (cf_embcfg c))); try done; injection E as <-; unfold stored; by rewrite Ep. }
    inversion Hcut as [|D2 Hcl Hv Hcn Hsv|D2 Hcl Hv Hcn Hsv Hmc|D2 r b' Hc Hb]; subst.
    - done.
    - destruct (Hsave _ Hsv) as [Hnew E]. rewrite E. split_and!; [done..| | |].
      + intros n Hne. by rewrite !disk_files.
      + rewrite disk_files. cbn [db_colls db_files db_handles]. rewrite Hcn. cbn. by rewrite Hnofile.
      + rewrite disk_files. cbn [db_colls db_files db_handles]. rewrite Hcn. cbn. by rewrite Hnofile.
    - destruct Hsv as [D2 Hsv]. destruct (Hsave _ Hsv) as [Hnew _].
      assert ((meta_create c D).1 = DB (db_rows D ++ [Row (db_next D) (stored c)]) (S (db_next D)) (<[cf_name c := FDir empty_disk]> (db_files D)) (db_colls D) (db_handles D) (db_closed D)) as E.
      { unfold meta_create. unfold meta_save in Hsv. rewrite (plain_mkdir c (db_files D)) by done.
        destruct (cf_params c) as [| |r] eqn:Ep; [done| |]; destruct (negb (is_object (cf_embcfg c))); try done; destruct (existsb _ _); try done;
          cbn [fst]; unfold stored; by rewrite Ep. }
      rewrite E. split_and!; [done..| | |].
      + intros n Hne. rewrite !disk_files. cbn [db_colls db_files db_handles]. by rewrite lookup_insert_ne.
      + rewrite disk_files. cbn [db_colls db_files db_handles]. rewrite Hcn. cbn. by rewrite lookup_insert.
      + rewrite disk_files. cbn [db_colls db_files db_handles]. rewrite Hcn. cbn. by rewrite lookup_insert.
    - destruct r as [i|e|p].
      + apply create_val in Hc as (_ & Hv & Hcn & Hr & _ & _ & -> & ->). cbn [db_rows db_next db_files db_colls db_handles] in *.
        assert (b = true) as ->. { apply Hb. intros E. apply (f_equal length) in E. rewrite app_length in E. cbn in E. lia. }
        split_and!; [done..| | |].
        * intros n Hne. rewrite !disk_files. cbn [db_colls db_files db_handles]. rewrite lookup_insert_ne by done.
          destruct (db_colls D !! n) as [j|] eqn:Ej; [|done]. cbn [mbind option_bind].
          rewrite lookup_app_l; [done|]. by apply Hdom in Ej as [_ Ej].
        * rewrite disk_files. cbn [db_colls db_files db_handles]. rewrite lookup_insert. cbn [mbind option_bind].
          rewrite lookup_app_r, Nat.sub_diag by lia. by vm_compute.
        * rewrite disk_files. cbn [db_colls db_files db_handles]. rewrite lookup_insert. cbn [mbind option_bind].
          rewrite lookup_app_r, Nat.sub_diag by lia. done.
      + assert (D1 = D) as E.
        { pose proof Hc as Hc2. apply create_fail in Hc2 as (_ & _ & _ & _ & [?|[Hrw Hx]]); [done| |done]. exfalso.
          destruct (db_colls D !! cf_name c) as [j|] eqn:Ec; [by apply Hdom in Ec as [Ec _]|].
          destruct (validate c) as [[]|e2|p2] eqn:Ev.
          - destruct (create_ok c D Hpl Ev Hop Ec Hx Hnofile) as [D4 E4]. by rewrite Hc in E4.
          - unfold create_collection in Hc. rewrite Hop, Ev in Hc. injection Hc as <- <-.
            apply (f_equal length) in Hrw. rewrite app_length in Hrw. cbn in Hrw. lia.
          - by apply validate_no_pan in Ev. }
        assert (b = false) as ->; [|done]. destruct b; [|done]. destruct Hb as [Hb _]. destruct (Hb eq_refl). by rewrite E.
      + by apply create_fail in Hc as ([e [=]] & _).
  Qed.

  (** ** One event *)
  Lemma lived_call e D h i C c s' r : en_idx e = i -> db_handles D !! i = Some h -> hd_cfg h = cfg_now (en_cfg e) (en_hist e) ->
    lived e (hd_st h) -> params (hd_cfg h) = Some C -> call_run C (hd_st h) c s' r -> lived (add_ev (EvCall c r) e) s'.
  Proof using.
    intros Ei Hh Hc Hl HC Hr. rewrite Hc in HC. econstructor; [exact Hl|exact HC|]. by constructor.
  Qed.
  Lemma lived_restart e s s' : plain (en_cfg e) -> validate (en_cfg e) = Val tt -> lived e s -> reopen (disk_of s) = Val s' -> lived (add_ev EvRestart e) s'.
  Proof using.
    intros Hp Hv Hl Hr. destruct (params_now env_embed J maxv workers fuel _ (en_hist e) Hp Hv) as [C HC]. econstructor; [exact Hl|exact HC|]. by constructor.
  Qed.
  Lemma KI_do D P S e D' : KI D P S -> names_ok_ev S (KDo e) -> dstep env_embed J maxv workers fuel D e D' -> KI D' (entries_step P (KDo e)) S.
  Proof using.
    intros HK Hti Hs. inversion Hs as [c D3 r Hc|n D3 r Hc|n r Hc|i h C c s' r Hi Hp Hr|D3 Ho]; subst; cbn [entries_step names_ok_ev] in *.
    - destruct Hti as [Hpl HS]. destruct (create_cases _ _ _ _ _ _ HK Hpl HS Hc) as [[-> [e ->]]|[i ->]]; [done|].
      pose proof (KI_rows_names _ _ _ HK) as Hnm. destruct HK as [H1 H2 H3 H4 H5 H6 H7 H8].
      apply create_val in Hc as (_ & Hv & Hcn & Hr & _ & Hf & -> & ->). rewrite Hnm in Hr.
      split; cbn [db_closed db_rows db_colls db_handles db_files]; try done.
      + by rewrite !fmap_app, H2.
      + rewrite fmap_app. apply NoDup_app. split_and!; [done| |apply NoDup_singleton]. intros x Hx [->|Hy%elem_of_nil]%elem_of_cons; [|done]. done.
      + rewrite fmap_app. apply NoDup_app. split_and!; [done| |apply NoDup_singleton]. intros x Hx [->|Hy%elem_of_nil]%elem_of_cons; [|done].
        apply elem_of_list_fmap in Hx as (e & Ee & He). destruct (H7 e He) as (h & Hh & _). apply lookup_lt_Some in Hh. cbn in Ee. lia.
      + intros n i. rewrite lookup_insert_Some. split.
        * intros [[<- <-]|[Hne Hi]]; [exists (Entry c (length (db_handles D)) []); split_and!; [apply elem_of_app; right; by left|done..]|].
          apply H5 in Hi as (e & He & E1 & E2). exists e. split_and!; [apply elem_of_app; by left|done..].
        * intros (e & [He|He]%elem_of_app & E1 & E2).
          -- right. split; [|apply H5; by exists e]. intros E. apply Hr. rewrite E, <- E1. apply elem_of_list_fmap. by exists e.
          -- apply elem_of_list_singleton in He as ->. left. cbn in *. done.
      + intros e [He|He%elem_of_list_singleton]%elem_of_app; [by apply H6|subst e]. done.
      + intros e [He|He%elem_of_list_singleton]%elem_of_app.
        * destruct (H7 e He) as (h & Hh & Hx). exists h. split; [|done]. by apply lookup_app_l_Some.
        * subst e. exists (Handle c empty_st). cbn [en_idx en_cfg]. rewrite lookup_app_r, Nat.sub_diag by lia. split_and!; [done|done|].
          constructor.
    - destruct r as [[]|e|p]; [|apply delete_fail in Hc as [-> _]; done|apply delete_fail in Hc as [-> _]; done].
      apply delete_val in Hc as (_ & _ & _ & ->). destruct HK as [H1 H2 H3 H4 H5 H6 H7 H8].
      split; cbn [db_closed db_rows db_colls db_handles db_files]; try done.
      + by apply drop_rows.
      + by apply NoDup_drop.
      + by apply NoDup_drop_idx.
      + intros m i. rewrite lookup_delete_Some. split.
        * intros [Hne Hi]. apply H5 in Hi as (e & He & E1 & E2). exists e. split_and!; [apply drop_elem; split; [done|by rewrite E1]|done..].
        * intros (e & [He Hne]%drop_elem & E1 & E2). split; [by rewrite <- E1|]. apply H5. by exists e.
      + intros e [He _]%drop_elem. by apply H6.
      + intros e [He _]%drop_elem. by apply H7.
      + intros m [x [_ Hx]%lookup_delete_Some]. apply H8. by eexists.
    - done.
    - destruct HK as [H1 H2 H3 H4 H5 H6 H7 H8].
      set (f := fun e => if decide (en_idx e = i) then add_ev (EvCall c r) e else e).
      assert (Hcf : forall e, en_cfg (f e) = en_cfg e) by (intros e; unfold f; by destruct (decide _)).
      assert (Hix : forall e, en_idx (f e) = en_idx e) by (intros e; unfold f; by destruct (decide _)).
      assert (Hnm : forall e, en_name (f e) = en_name e) by (intros e; unfold en_name; by rewrite Hcf).
      split; cbn [db_closed db_rows db_colls db_handles db_files]; try done.
      + rewrite H2. symmetry. apply (fmap_keep (fun e => stored (en_cfg e))). intros e. by rewrite Hcf.
      + by rewrite (fmap_keep en_name).
      + by rewrite (fmap_keep en_idx).
      + intros n j. rewrite H5. split.
        * intros (e & He & E1 & E2). exists (f e). rewrite Hnm, Hix. split_and!; [by apply elem_of_list_fmap_1|done..].
        * intros (e & (e0 & -> & He0)%elem_of_list_fmap & E1 & E2). exists e0. by rewrite Hnm, Hix in *.
      + intros e (e0 & -> & He0)%elem_of_list_fmap. rewrite Hcf, Hnm. by apply H6.
      + intros e (e0 & -> & He0)%elem_of_list_fmap. rewrite Hcf, Hix. destruct (H7 e0 He0) as (h0 & Hh0 & Hc0 & Hl0).
        unfold f. destruct (decide (en_idx e0 = i)) as [<-|Hne].
        * rewrite Hi in Hh0. injection Hh0 as <-. exists (Handle (hd_cfg h) s'). split_and!; [apply list_lookup_insert; by eapply lookup_lt_Some| |].
          { cbn [hd_cfg add_ev en_hist en_cfg]. rewrite Hc0. unfold cfg_now. rewrite reopened_snoc. by rewrite orb_false_r. }
          cbn [hd_st]. by eapply lived_call.
        * exists h0. rewrite list_lookup_insert_ne by done. done.
    - rewrite close_disk in Ho. pose proof (KI_rows_names _ _ _ HK) as Hnames. pose proof HK as [H1 H2 H3 H4 H5 H6 H7 H8].
      eapply (open_KI D); [| | | | | |exact Ho].
      + rewrite H2. symmetry. by apply (fmap_keep (fun e => stored (en_cfg e))).
      + by rewrite (fmap_keep en_name).
      + intros e (e0 & -> & He0)%elem_of_list_fmap. by apply (H6 e0).
      + intros e (e0 & -> & He0)%elem_of_list_fmap. cbn [add_ev en_hist]. rewrite reopened_snoc. by apply orb_true_r.
      + intros e s (e0 & -> & He0)%elem_of_list_fmap. change (en_name (add_ev EvRestart e0)) with (en_name e0).
        rewrite disk_files. destruct (H7 e0 He0) as (h & Hh & Hc & Hl).
        assert (db_colls D !! en_name e0 = Some (en_idx e0)) as -> by (apply H5; by exists e0). cbn [mbind option_bind]. rewrite Hh. cbn [dir_of].
        intros Hre. destruct (H6 e0 He0) as (Hp & Hv & _). by apply (lived_restart e0 (hd_st h)).
      + intros n. rewrite disk_files. destruct (db_colls D !! n) as [i|] eqn:Ei.
        * intros _. right; right. rewrite (fmap_keep en_name) by done. apply H5 in Ei as (e & He & <- & _). by apply elem_of_list_fmap_1.
        * cbn. intros Hn. destruct (H8 n Hn); auto.
  Qed.

  (** The handles of a crashed process: the structure is unchanged. *)
  Lemma cut_lived C e h c n s1 s : lived e (hd_st h) -> hd_cfg h = cfg_now (en_cfg e) (en_hist e) ->
    params (hd_cfg h) = Some C -> call_cut C (hd_st h) c s1 -> reopen (disk_of (wal_flush_torn n s1)) = Val s -> lived (add_ev (EvCrash c n) e) s.
  Proof using.
    intros Hl Hc HC Hcut Hre. rewrite Hc in HC. econstructor; [exact Hl|exact HC|]. by econstructor.
  Qed.
  Lemma cut_files D P S cuts hs e s : KI D P S -> cut_handles env_embed J maxv workers fuel cuts (db_handles D) hs -> e ∈ P ->
    exists h', hs !! en_idx e = Some h' /\ (reopen (disk_of (hd_st h')) = Val s -> lived (add_ev (cut_event cuts (en_idx e)) e) s).
  Proof using.
    intros HK [_ Hcut] He. destruct (ki_hd _ _ _ HK e He) as (h & Hh & Hc & Hl). destruct (Hcut _ _ Hh) as (h' & Hh' & _ & Hx). exists h'. split; [done|].
    intros Hre. unfold cut_event. destruct (cuts !! en_idx e) as [[c n]|].
    - destruct Hx as (C & s1 & HC & Hct & Es). rewrite Es in Hre. by eapply cut_lived.
    - subst h'. destruct (ki_ent _ _ _ HK e He) as (Hp & Hv & _). by apply (lived_restart e (hd_st h)).
  Qed.
  Lemma KI_crash D P S cuts op D' : KI D P S -> names_ok_ev S (KCrash cuts op) -> kstep D (KCrash cuts op) D' ->
    KI D' (entries_step P (KCrash cuts op)) (dirty_step S (KCrash cuts op)).
  Proof using.
    intros HK Hti Hs. inversion Hs as [|cuts' op' hs D1 D3 Hcut Hop Ho]; subst.
    set (Dh := DB (db_rows D) (db_next D) (db_files D) (db_colls D) hs (db_closed D)) in *.
    pose proof (KI_rows_names _ _ _ HK) as Hnames. pose proof HK as [H1 H2 H3 H4 H5 H6 H7 H8].
    set (f := fun e => add_ev (cut_event cuts (en_idx e)) e).
    assert (Hfre : forall e, reopened (en_hist (f e)) = true).
    { intros e. cbn [f add_ev en_hist]. rewrite reopened_snoc. unfold cut_event. destruct (cuts !! en_idx e) as [[]|]; by apply orb_true_r. }
    assert (Hfiles : forall e, e ∈ P -> exists h', dd_files (db_disk Dh) !! en_name e = Some (FDir (disk_of (hd_st h'))) /\
       forall s, reopen (disk_of (hd_st h')) = Val s -> lived (f e) s).
    { intros e He. destruct (cut_files _ _ _ _ _ e empty_st HK Hcut He) as (h' & Hh' & _). exists h'. split.
      - rewrite disk_files. assert (db_colls Dh !! en_name e = Some (en_idx e)) as -> by (apply H5; by exists e). cbn [mbind option_bind]. change (db_handles Dh) with hs. by rewrite Hh'.
      - intros s Hre. destruct (cut_files _ _ _ _ _ e s HK Hcut He) as (h2 & Hh2 & Hx). rewrite Hh' in Hh2. injection Hh2 as <-. by apply Hx. }
    assert (Hrest : forall n, is_Some (dd_files (db_disk Dh) !! n) -> n = "metadata.db"%string \/ n ∈ S \/ n ∈ en_name <$> P).
    { intros n. rewrite disk_files. change (db_colls Dh) with (db_colls D). change (db_files Dh) with (db_files D). destruct (db_colls D !! n) as [i|] eqn:Ei.
      - intros _. right; right. apply H5 in Ei as (e & He & <- & _). by apply elem_of_list_fmap_1.
      - cbn. intros Hn. destruct (H8 n Hn); auto. }
    (* no call on the database had any effect *)
    assert (Hnone : D1 = Dh -> KI D' (renumber (f <$> P)) S).
    { intros ED. rewrite ED in Ho. eapply (open_KI Dh); [| | | | | |exact Ho].
      - rewrite (fmap_keep (fun e => stored (en_cfg e))); [exact H2|done].
      - by rewrite (fmap_keep en_name).
      - intros e (e0 & -> & He0)%elem_of_list_fmap. by apply (H6 e0).
      - intros e (e0 & -> & He0)%elem_of_list_fmap. apply Hfre.
      - intros e s (e0 & -> & He0)%elem_of_list_fmap. change (en_name (f e0)) with (en_name e0).
        destruct (Hfiles e0 He0) as (h' & E1 & E2). rewrite E1. apply E2.
      - rewrite (fmap_keep en_name) by done. exact Hrest. }
    destruct op as [[[c|n] b]|]; cbn [op_cut names_ok_ev] in Hop, Hti; [| |by apply Hnone].
    - destruct Hti as [Hpl HS].
      assert (Hnofile : db_files Dh !! cf_name c = None).
      { change (db_files Dh) with (db_files D). destruct (db_files D !! cf_name c) eqn:E; [|done]. destruct (H8 (cf_name c)) as [E2|E2]; [by rewrite E| |done]. by destruct (pl_meta _ Hpl). }
      assert (Hdom : forall n i, db_colls Dh !! n = Some i -> n ∈ names (db_rows Dh) /\ i < length (db_handles Dh)).
      { change (db_colls Dh) with (db_colls D). change (db_rows Dh) with (db_rows D). change (db_handles Dh) with hs. intros n i Hi.
        apply H5 in Hi as (e & He & <- & <-). rewrite Hnames. split; [by apply elem_of_list_fmap_1|].
        destruct (H7 e He) as (h & Hh & _). apply lookup_lt_Some in Hh. destruct Hcut as [-> _]. done. }
      pose proof (create_cut_shape Dh c b D1 Hpl H1 Hnofile Hdom Hop) as Hsh. destruct b; [|by apply Hnone].
      destruct Hsh as (Hv & Hnew & E1 & Hoth & Hemp & _). change (db_rows Dh) with (db_rows D) in Hnew, E1. rewrite Hnames in Hnew.
      cbn [entries_step dirty_step]. eapply (open_KI D1); [| | | | | |exact Ho].
      + rewrite E1, !fmap_app. f_equal. rewrite (fmap_keep (fun e => stored (en_cfg e))); [exact H2|done].
      + rewrite fmap_app, (fmap_keep en_name) by done. apply NoDup_app. split_and!; [done| |apply NoDup_singleton].
        intros y Hy [->|Hz%elem_of_nil]%elem_of_cons; [|done]. done.
      + intros e [(e0 & -> & He0)%elem_of_list_fmap|He%elem_of_list_singleton]%elem_of_app; [by apply (H6 e0)|subst e]. done.
      + intros e [(e0 & -> & He0)%elem_of_list_fmap|He%elem_of_list_singleton]%elem_of_app; [apply Hfre|by subst e].
      + intros e s [(e0 & -> & He0)%elem_of_list_fmap|He%elem_of_list_singleton]%elem_of_app.
        * change (en_name (add_ev (cut_event cuts (en_idx e0)) e0)) with (en_name e0). rewrite Hoth.
          -- destruct (Hfiles e0 He0) as (h' & E3 & E4). rewrite E3. apply E4.
          -- intros E. apply Hnew. rewrite <- E. by apply elem_of_list_fmap_1.
        * subst e. change (en_name (Entry c 0 [EvRestart])) with (cf_name c). rewrite Hemp, reopen_empty. intros <-%Val_inj. apply (lived_restart (Entry c 0 []) empty_st); [done|done|constructor|by vm_compute].
      + intros n Hn. rewrite fmap_app, (fmap_keep en_name) by done. destruct (decide (n = cf_name c)) as [->|Hne].
        * right; right. apply elem_of_app. right. by apply elem_of_list_singleton.
        * rewrite Hoth in Hn by done. destruct (Hrest n Hn) as [?|[?|?]]; [by left|right; by left|right; right]. apply elem_of_app. by left.
    - inversion Hop as [|rest Hcl Hcn Hex]; subst; cbn [entries_step dirty_step] in *; [by apply Hnone|].
      set (D1 := DB (drop_row n Dh) (db_next Dh) match rest with Some d => <[n := FDir d]> (db_files Dh) | None => delete n (db_files Dh) end
         (delete n (db_colls Dh)) (db_handles Dh) (db_closed Dh)) in *.
      assert (Hoth : forall m, m <> n -> dd_files (db_disk D1) !! m = dd_files (db_disk Dh) !! m).
      { intros m Hne. rewrite !disk_files. cbn [D1 db_colls db_files db_handles]. rewrite lookup_delete_ne by done.
        assert (match rest with Some d => <[n:=FDir d]> (db_files Dh) | None => delete n (db_files Dh) end !! m = db_files Dh !! m) as ->; [|done].
        destruct rest; [by rewrite lookup_insert_ne|by rewrite lookup_delete_ne]. }
      eapply (open_KI D1); [| | | | | |exact Ho].
      + rewrite (fmap_keep (fun e => stored (en_cfg e))) by done. by apply drop_rows.
      + rewrite (fmap_keep en_name) by done. by apply NoDup_drop.
      + intros e (e0 & -> & [He0 Hne]%drop_elem)%elem_of_list_fmap. destruct (H6 e0 He0) as (G1 & G2 & G3). split_and!; [done..|]. change (en_name (add_ev (cut_event cuts (en_idx e0)) e0)) with (en_name e0). set_solver.
      + intros e (e0 & -> & _)%elem_of_list_fmap. apply Hfre.
      + intros e s (e0 & -> & [He0 Hne]%drop_elem)%elem_of_list_fmap. change (en_name (add_ev (cut_event cuts (en_idx e0)) e0)) with (en_name e0). rewrite Hoth by done.
        destruct (Hfiles e0 He0) as (h' & E1 & E2). rewrite E1. apply E2.
      + intros m Hm. rewrite (fmap_keep en_name) by done. destruct (decide (m = n)) as [->|Hne]; [right; left; set_solver|].
        rewrite Hoth in Hm by done. destruct (Hrest m Hm) as [?|[?|Hx]]; [by left|right; left; set_solver|right; right].
        apply elem_of_list_fmap in Hx as (e & -> & He). apply elem_of_list_fmap_1. by apply drop_elem.
  Qed.

  Lemma KI_fresh : KI fresh_db [] ∅.
  Proof using.
    clear. split; cbn; try done.
    - apply NoDup_nil_2.
    - apply NoDup_nil_2.
    - intros n i. rewrite lookup_empty. split; [done|]. by intros (e & He%elem_of_nil & _).
    - intros e He. by apply elem_of_nil in He.
    - intros e He. by apply elem_of_nil in He.
    - intros n [x Hx]. apply lookup_singleton_Some in Hx as [<- _]. by left.
  Qed.
  Lemma khist_KI l D : khist fresh_db l D -> names_ok l -> KI D (entries l) (dirty l).
  Proof using.
    intros H. induction H as [|l e D1 D2 H IH Hs]; intros Ht; [apply KI_fresh|]. apply names_ok_snoc in Ht as [Ht1 Ht2]. rewrite entries_snoc, dirty_snoc.
    specialize (IH Ht1). destruct e as [e|cuts op].
    - inversion Hs as [e' D3 Hd|]; subst. by eapply KI_do.
    - by eapply KI_crash.
  Qed.
End inv.
