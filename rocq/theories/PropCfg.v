(** C111: a collection of a database works as its configuration says. *)
From Coq Require Import Ascii SpecFloat.
From stdpp Require Import relations sorting.
From Verif Require Import GoBase FloatModel HeapModel ProgModel StateModel WalModel HnswModel StoreModel CollModel CallModel DBModel
  ProofBase CodecProofs CodecSpec WpProofs StoreProofs StoreView CallProofs HistProofs HnswProofs IndexProofs IndexHist AlignProofs CollWf PropIndex HistRun PropStore PropColl PropRestore PropGrowth DBProofs PropDB DBCrashModel DBCrashProofs PropDBCrash IdxProofs PropIdx.
Open Scope nat_scope.

(** The calls that were told to insert and succeeded. *)
Definition succeeded (r : reply) : Prop := match r with RIns (Val _) | RBatch (Val _) _ => True | _ => False end.
Lemma succeeded_prepared C s c s' r : call_run C s c s' r -> succeeded r ->
  validate_objects C 0 (submitted c) = Val tt /\ exists os, embed_objects C (submitted c) = Val os.
Proof.
  intros Hr Hs. assert (Hb : forall os os2, batch_prepare C s os = Val os2 -> validate_objects C 0 os = Val tt /\ exists os3, embed_objects C os = Val os3).
  { intros os os2 (_ & H1 & H2 & _)%batch_prepare_val. split; [done|by exists os2]. }
  inversion Hr as [io level o s2 r1 Hx|io ol r1 Hp Hn|io ol os s2 r1 rs1 Hp Hb1|io ol r1 Hp Hn|io ol os s2 r1 rs1 Hp Hb1|io id f s2 r1 Hlk Hx|ids s2 r1 Hx|o k s2 r1 Hx|s2 r1 Hx|o s2 r1 Hx|s2 r1 Hx]; subst; try done.
  - destruct r1 as [o2|e|z]; [|done..]. cbn [submitted]. unfold CollModel.insert in Hx. rewrite exec_bind in Hx. unfold check_open in Hx. rewrite exec_act in Hx.
    destruct (closed s); [done|]. rewrite exec_bind, exec_lift in Hx. destruct (validate_objects C 0 [o]) as [[]|e|z]; [|done..]. split; [done|].
    rewrite exec_bind, exec_lift in Hx. destruct (embed_objects C [o]) as [os|e|z]; [by exists os|done..].
  - destruct (batch_prepare C s' ol.*1) as [os| |] eqn:E; [by destruct (Hn os)|done..].
  - by eapply Hb.
  - destruct (batch_prepare C s' ol.*1) as [os| |] eqn:E; [by destruct (Hn os)|done..].
  - by eapply Hb.
Qed.

Section cfg.
  Context (env_embed : string -> jval -> embedder) (J : json) (maxv : N) (workers fuel : nat).
  Notation params c := (cparams_of env_embed J maxv workers fuel c).
  Notation khist := (khist env_embed J maxv workers fuel).
  Notation kstep := (kstep env_embed J maxv workers fuel).

  (** ** C111 A collection works as its configuration says *)
  (** The distance function a configuration names. *)
  Definition names_distance (r : raw) (kind : dist_kind) : Prop :=
    r_dist r = "dot_product"%string /\ kind = DotProduct \/ r_dist r = "euclidean_distance"%string /\ kind = Euclidean.
  (** Numbers that fit the records of the log. *)
  Definition fits_log (r : raw) : Prop := (r_m r <= 2 * r_mmax r)%Z /\ (r_m r < 2 ^ 32)%Z /\ (2 * r_mmax r < 2 ^ 32)%Z.

  (** Whatever else happens in the database, a search of the collection answers
      with objects that are there, nearest first by the distance the
      configuration names, and at most ef of them; and small collections without the
      heuristic are searched exactly, small being a matter of M, efConstruction and ef. *)
  Theorem C111_searches_as_configured_partial : forall l D e r kind n B C h o o' k,
    khist fresh_db l D -> names_ok l -> e ∈ entries l -> lean (en_cfg e) ->
    cf_params (en_cfg e) = IPOk r -> names_distance r kind -> fits_log r ->
    (maxv < 2 ^ 32)%N -> json_total J -> (kind = DotProduct -> n mod 8 = 0) -> B <= fuel -> (N.of_nat B < 2 ^ 64)%N ->
    params (en_cfg e) = Some C -> Forall (tidy_ev C n) (en_hist e) -> fed_first (en_hist e) ->
    (N.of_nat (sum_list (ev_records (cp_h C) <$> en_hist e)) + 1 < 2 ^ 64)%N -> hist_inserts (en_hist e) <= B ->
    acked_ids (en_hist e) <> [] -> names_to D (en_name e) h -> closed (hd_st h) = false ->
    embed_objects C [o] = Val [o'] -> length (vec_or_nil o') = n -> (0 <= k)%Z ->
    (forall v w d, v ∈ vec_or_nil o' :: (vec_or_nil <$> mjoin (acked <$> en_hist e)) -> w ∈ vec_or_nil o' :: (vec_or_nil <$> mjoin (acked <$> en_hist e)) ->
      dist_func kind v w = Val d -> d <> S754_nan) ->
    params (hd_cfg h) = Some C /\
    exists hs, exec (semantic_search C 0 o k) (hd_st h) = Some (hd_st h, Val (length hs, hs)) /\
      hits_ok J kind (Z.to_nat (r_ef r)) (alive (en_hist e)) (vec_or_nil o') k hs /\
      let small := Z.of_nat (length (acked_ids (en_hist e))) in
      (r_heur r = false -> (small <= r_m r + 1)%Z -> (small <= r_efc r + 1)%Z -> (small <= r_ef r)%Z ->
       hits_exact kind (alive (en_hist e)) (vec_or_nil o') k hs).
  Proof using.
    intros l D e r kind n B C h o o' k Hl Hok He Hlean Er Hkind (L1 & L2 & L3) Hmax HJ Hdim HB HB64 HC Ht Hf Hr Hn Hne Hh Hcl Hemb Hd Hk Hnan.
    destruct (C96_collections_are_independent_partial env_embed J maxv workers fuel _ _ Hl Hok) as (_ & _ & Hent).
    destruct (Hent e He) as (h' & Hh' & _ & Ecfg & _ & Hx). assert (h' = h) as ->.
    { destruct Hh as (j1 & E1 & E2), Hh' as (j2 & E3 & E4). rewrite E1 in E3. apply Val_inj in E3 as ->. rewrite E2 in E4. by injection E4. }
    destruct (Hx Hlean) as (C2 & HC2 & Hhist). rewrite HC in HC2. injection HC2 as <-.
    destruct (ki_ent _ _ _ _ _ _ _ _ (khist_KI _ _ _ _ _ _ _ Hl Hok) e He) as (Hp & Hv & _).
    assert (Ecfg2 : hd_cfg h = en_cfg e).
    { rewrite Ecfg. unfold cfg_now. destruct (reopened (en_hist e)); [|done]. by apply lean_stored. }
    split; [by rewrite Ecfg2|].
    apply PropDB.validate_spec in Hv as (_ & [Hi|(_ & r' & Er' & H1 & H2 & H3 & H4 & H5)] & _); [by rewrite (pl_index _ Hp) in Hi|].
    rewrite Er in Er'. injection Er' as <-.
    pose proof HC as EC. unfold cparams_of in EC. rewrite Er in EC. injection EC as EC.
    assert (Ek : hp_dist (cp_h C) = kind).
    { subst C. cbn [cp_h hparams_of hp_dist]. by destruct Hkind as [[-> ->]|[-> ->]]. }
    assert (HU : plain_use C n B (en_hist e) (hd_st h)).
    { split; [|exact Hhist|exact Ht|exact Hf|exact Hr|exact Hn].
      split; [| | | exact HB64 | |]; rewrite <- EC; cbn [cp_h cp_fuel cp_json cp_maxval]; [unfold hparams_of; split; cbn; lia| |exact HB| |exact HJ].
      - rewrite <- EC in Ek. cbn [cp_h] in Ek. rewrite Ek. destruct kind; [by apply Hdim|done].
      - split; cbn; [done|]. unfold hparams_of. cbn. lia. }
    destruct (C110_search_answers C n B (en_hist e) (hd_st h) o o' k HU Hne Hcl Hemb Hd Hk) as (hs & A1 & A2 & A3).
    { intros v w d Hv Hw. rewrite Ek. by apply Hnan. }
    exists hs. split; [exact A1|]. rewrite Ek in A2, A3. clear -A2 A3 EC. split; [by subst C|]. cbv zeta. intros B1 B2 B3 B4.
    apply A3; subst C; cbn; [exact B1|lia..].
  Qed.

  (** Until the database is opened again, the objects inserted are those with
      exactly the properties the configuration names; and a collection without an embedder
      takes no object without a vector, while one with an embedder asks the one it is
      configured with. *)
  Theorem C111_inserts_as_configured_partial : forall l D e c r D',
    khist fresh_db l D -> names_ok l -> e ∈ entries l -> kstep D (KDo (VUse (en_idx e) c r)) D' -> succeeded r ->
    (NoDup (cf_maps (en_cfg e)) -> reopened (en_hist e) = false ->
     forall o, o ∈ submitted c -> forall m, m ∈ cf_maps (en_cfg e) <-> is_Some (o_props o !! m)) /\
    (cf_embedder (en_cfg e) = ""%string -> forall o, o ∈ submitted c -> is_Some (o_vec o)) /\
    (cf_embedder (en_cfg e) <> ""%string ->
     exists vs, env_embed (cf_embedder (en_cfg e)) (cf_embcfg (en_cfg e)) (without_vec (submitted c)) = Some vs).
  Proof using.
    intros l D e c r D' Hl Hok He Hs Hsu. inversion Hs as [ev D1 Hd|]; subst. inversion Hd as [| | |i h C c2 s' r2 Hi Hp Hr|]; subst.
    destruct (khist_KI _ _ _ _ _ _ _ Hl Hok) as [_ _ _ _ _ H6 H7 _]. destruct (H7 e He) as (h' & Hh' & Ecfg & _). rewrite Hi in Hh'. injection Hh' as <-.
    destruct (H6 e He) as (Hpl & Hv & _).
    destruct (succeeded_prepared _ _ _ _ _ Hr Hsu) as (Hval & os & Hemb). clear Hs Hd Hr Hsu.
    apply PropDB.validate_spec in Hv as (_ & [Hx|(_ & w & Ew & _)] & _); [by rewrite (pl_index _ Hpl) in Hx|].
    rewrite Ecfg in Hp. split; [|split].
    - intros Hnd Hre o Ho m. unfold cfg_now in Hp. rewrite Hre in Hp. unfold cparams_of in Hp. rewrite Ew in Hp. injection Hp as Hp.
      assert (Em : cp_mappings C = cf_maps (en_cfg e)) by (by subst C). rewrite <- Em in *.
      revert m. apply (C37_mappings_exact_partial C o 0 Hnd).
      destruct (PropColl.validate_spec C 0 (submitted c)) as [[_ H]|(? & E & _)]; [|congruence]. rewrite Forall_forall in H. specialize (H o Ho).
      destruct (PropColl.validate_spec C 0 [o]) as [[E _]|(? & _ & E)]; [exact E|]. apply Exists_cons in E as [E|E]; [done|by apply Exists_nil in E].
    - intros Hne o Ho. assert (Ec : cp_embed C = None).
      { unfold cparams_of, cfg_now in Hp. destruct (reopened (en_hist e)); cbn [reloaded cf_params cf_embedder] in Hp; rewrite Ew in Hp; injection Hp as <-; cbn; by rewrite Hne. }
      unfold embed_objects in Hemb. rewrite Ec in Hemb. destruct (existsb needs_vec (submitted c)) eqn:Ex; [done|].
      destruct (o_vec o) as [v|] eqn:Ev; [by eexists|]. exfalso. assert (existsb needs_vec (submitted c) = true); [|congruence].
      apply existsb_exists. exists o. split; [by apply elem_of_list_In|]. unfold needs_vec. by rewrite Ev.
    - intros Hne. assert (Ec : cp_embed C = Some (env_embed (cf_embedder (en_cfg e)) (cf_embcfg (en_cfg e)))).
      { apply String.eqb_neq in Hne.
        unfold cparams_of, cfg_now in Hp. destruct (reopened (en_hist e)); cbn [reloaded cf_params cf_embedder cf_embcfg] in Hp; rewrite Ew in Hp; injection Hp as <-; cbn; by rewrite Hne. }
      unfold embed_objects in Hemb. rewrite Ec, filter_needs in Hemb. destruct (env_embed _ _ _) as [vs|]; [by exists vs|done].
  Qed.
End cfg.
Print Assumptions C111_searches_as_configured_partial.
Print Assumptions C111_inserts_as_configured_partial.

(** "x" has five acknowledged inserts and a deletion, on both sides of a restart
    of the database, next to "y"; ef and efConstruction differ. *)
Definition g_raw : raw := Raw 4 4 9 6 false "euclidean_distance".
Definition g_cfg (n : string) : config := Config n "hnsw" "" "text" (IPOk g_raw) JNull [].
Definition g_C : cparams := CParams (HParams 4 4 9 6 false Euclidean) [] None ex_json 65536 2 50.
Definition g_script : list dsev :=
  [ QCreate (g_cfg "x"); QCreate (ok_cfg "y" ["a"%string]); QUse 0 (CInsert true 0 (ob1 0)) 0; QUse 1 (CInsert true 0 (ob0 0)) 0;
    QUse 0 (CInsert true 1 (ob1 1065353216)) 0; QUse 0 (CInsert true 0 (ob1 1073741824)) 0;
    QReopen; QUse 0 (CInsert true 2 (ob1 1077936128)) 0; QUse 0 (CDelete true 1) 0; QUse 0 (CInsert true 0 (ob1 1082130432)) 0 ].
Definition g_run : option (list dev * db) := Eval vm_compute in drun no_embed ex_json 65536 2 50 g_script fresh_db.
Definition g_evs : list dev := match g_run with Some (l, _) => l | None => [] end.
Definition g_db : db := match g_run with Some (_, D) => D | None => fresh_db end.
Definition g_entry : entry := Eval vm_compute in default (Entry (g_cfg "x") 7 []) (head (entries (KDo <$> g_evs))).
Lemma g_khist : khist no_embed ex_json 65536 2 50 fresh_db (KDo <$> g_evs) g_db.
Proof. apply dhist_khist, (drun_ok no_embed ex_json 65536 2 50 g_script). vm_compute. reflexivity. Qed.
Lemma g_names_ok : names_ok (KDo <$> g_evs).
Proof.
  apply fresh_names_ok. apply Forall_cons_2; [split; try done; [cbn; intuition discriminate|by left]|].
  apply Forall_cons_2; [apply ok_plain; [cbn; intuition discriminate|done..]|]. repeat (apply Forall_cons_2; [exact I|]). apply Forall_nil_2.
Qed.
Example C111_case : khist no_embed ex_json 65536 2 50 fresh_db (KDo <$> g_evs) g_db /\ names_ok (KDo <$> g_evs) /\
  g_entry ∈ entries (KDo <$> g_evs) /\ en_cfg g_entry = g_cfg "x" /\ lean (g_cfg "x") /\ names_distance g_raw Euclidean /\ fits_log g_raw /\
  cparams_of no_embed ex_json 65536 2 50 (g_cfg "x") = Some g_C /\ Forall (tidy_ev g_C 1) (en_hist g_entry) /\ fed_first (en_hist g_entry) /\
  (N.of_nat (sum_list (ev_records (cp_h g_C) <$> en_hist g_entry)) + 1 < 2 ^ 64)%N /\ hist_inserts (en_hist g_entry) <= 50 /\
  acked_ids (en_hist g_entry) = [0; 1; 2; 3; 4]%N /\ alive_ids_of (en_hist g_entry) = [0; 2; 3; 4]%N /\
  names_to g_db "x" (Handle (g_cfg "x") (nth_st 0 g_db)) /\ closed (nth_st 0 g_db) = false /\
  (forall v w d, v ∈ vec_or_nil (ob1 1069547520) :: (vec_or_nil <$> mjoin (acked <$> en_hist g_entry)) ->
    w ∈ vec_or_nil (ob1 1069547520) :: (vec_or_nil <$> mjoin (acked <$> en_hist g_entry)) -> dist_func Euclidean v w = Val d -> d <> S754_nan) /\
  h_id <$> match exec (semantic_search g_C 0 (ob1 1069547520) 3) (nth_st 0 g_db) with Some (_, Val (_, hs)) => hs | _ => [] end = [2; 0; 3]%N.
Proof.
  split; [apply g_khist|]. split; [apply g_names_ok|]. split; [vm_compute; by left|]. split; [reflexivity|].
  split. { split; [split; try done; [cbn; intuition discriminate|by left]|]. split; [|done]. intros r [= <-]. done. }
  split; [by right|]. split; [done|]. split; [reflexivity|].
  split; [apply tidy_evb_ok; [done|vm_compute; reflexivity]|].
  split; [intros h1 c r h2 E Hs; by destruct (fed_firstb_ok false (en_hist g_entry) ltac:(vm_compute; reflexivity) h1 c r h2 E Hs)|].
  split; [vm_compute; reflexivity|]. split; [vm_compute; lia|]. split; [vm_compute; reflexivity|]. split; [vm_compute; reflexivity|].
  split; [exists 0; split; vm_compute; reflexivity|]. split; [vm_compute; reflexivity|].
  split; [|vm_compute; reflexivity]. apply (no_nan_check (cp_h g_C)). vm_compute. reflexivity.
Qed.

(** A batch whose objects have the property the configuration names; the same
    objects without it, and with another one, are refused. *)
Definition ob_with (ms : list string) (v : N) : object := Object 0 (list_to_map ((fun m => (m, JNull)) <$> ms)) (Some [v]).
Definition any_json : json := Json (fun _ => Some [123; 125]%N) (fun _ => Some ∅).
Definition b_call (ms : list string) : call := CBatch true [(ob_with ["a"%string] 0, 0); (ob_with ms 1065353216, 0)].
Definition b_script (ms : list string) : list dsev := [ QCreate (ok_cfg "x" ["a"%string]); QUse 0 (b_call ms) 50 ].
Definition b_reply (ms : list string) : option reply :=
  match drun no_embed any_json 65536 2 50 (b_script ms) fresh_db with Some ([_; VUse _ _ r], _) => Some r | _ => None end.
Example C111_inserts_case : exists D D' r,
  khist no_embed any_json 65536 2 50 fresh_db (KDo <$> [VCreate (ok_cfg "x" ["a"%string]) (Val 0)]) D /\
  names_ok (KDo <$> [VCreate (ok_cfg "x" ["a"%string]) (Val 0)]) /\
  Entry (ok_cfg "x" ["a"%string]) 0 [] ∈ entries (KDo <$> [VCreate (ok_cfg "x" ["a"%string]) (Val 0)]) /\
  kstep no_embed any_json 65536 2 50 D (KDo (VUse 0 (b_call ["a"%string]) r)) D' /\ succeeded r /\ NoDup ["a"%string] /\
  b_reply [] = Some (RBatch (Err (EMappingMissing 1 "a")) []) /\ b_reply ["a"; "b"]%string = Some (RBatch (Err (EMappingLen 1)) []).
Proof.
  assert (E : match drun no_embed any_json 65536 2 50 (b_script ["a"%string]) fresh_db with
    | Some ([VCreate c (Val i); VUse j k r], D) => Some (c, i, j, k, match r with RBatch (Val tt) [Val _; Val _] => true | _ => false end) | _ => None end
    = Some (ok_cfg "x" ["a"%string], 0, 0, b_call ["a"%string], true)) by (vm_compute; reflexivity).
  destruct (drun _ _ _ _ _ (b_script ["a"%string]) fresh_db) as [[l D']|] eqn:Er; [|done].
  apply (drun_ok no_embed any_json 65536 2 50 (b_script ["a"%string])) in Er.
  destruct l as [|[c [i| |]| | | |] [|[| | |j k r|] [|? ?]]]; try discriminate E. injection E as -> -> -> -> E. apply (dhist_last _ [VCreate _ _]) in Er as (D & H1 & H2).
  exists D, D', r. split; [by apply dhist_khist|].
  split. { apply fresh_names_ok. apply Forall_cons_2; [apply ok_plain; [cbn; intuition discriminate|done..]|]. apply Forall_nil_2. }
  split; [vm_compute; by left|]. split; [by constructor|]. split; [by destruct r as [|[[]| |] ?| | | |]|]. split; [apply NoDup_singleton|].
  split; vm_compute; reflexivity.
Qed.
