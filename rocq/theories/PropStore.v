(** Properties of the object store along histories: C01, C05, C06, C07, C08,
    C09, C13. *)
From stdpp Require Import relations sorting.
From Verif Require Import GoBase FloatModel HeapModel ProgModel StateModel WalModel HnswModel StoreModel CollModel CallModel
  ProofBase CodecProofs CodecSpec LogProofs WpProofs StepProofs SimProofs StoreProofs CallProofs HistProofs WalProofs HistRun StoreView.
Open Scope nat_scope.
Local Arguments id_key _ : simpl never.
Local Arguments le_put _ _ : simpl never.

(** ** A small collection for the examples *)
(** JSON objects {} and {"a":0} .. {"a":9}. *)
Definition ex_json : json :=
  Json (fun p => match map_to_list p with
                 | [] => Some [123; 125]%N
                 | [(k, JNum n)] => if bool_decide (k = "a"%string /\ n < 10)%N then Some [123; 34; 97; 34; 58; 48 + n; 125]%N else None
                 | _ => None
                 end)
       (fun b => match b with
                 | [_; _] => Some ∅
                 | [_; _; _; _; _; d; _] => Some {["a"%string := JNum (d - 48)]}
                 | _ => None
                 end).
Lemma ex_json_exact : json_exact ex_json.
Proof.
  intros p b. cbn. destruct (map_to_list p) as [|[k v] l] eqn:E.
  - apply map_to_list_empty_iff in E as ->. by intros [= <-].
  - destruct v as [| |n| | | ]; try done. destruct l; [|done]. case_bool_decide as Hb; [|done]. destruct Hb as [-> Hn].
    intros [= <-]. rewrite N.add_comm, N.add_sub. f_equal.
    pose proof (list_to_map_to_list (M := gmap string) (p : gmap string jval)) as Hp. 
    match type of Hp with list_to_map ?x = _ => change x with (map_to_list p) in Hp end. rewrite E in Hp. by rewrite <- Hp.
Qed.
Lemma ex_json_total : json_total ex_json.
Proof. intros p b H. exists p. by apply ex_json_exact. Qed.

Definition ex_C : cparams := CParams (HParams 4 4 8 8 true Euclidean) [] None ex_json 65536 2 50.
Definition ob_a (n : N) (v : fvec) : object := Object 0 {["a"%string := JNum n]} (Some v).
Definition ex_C_a : cparams := CParams (HParams 4 4 8 8 true Euclidean) ["a"%string] None ex_json 65536 2 50.

(** ** C01 Object ids are never reused *)
Theorem C01_ids_never_reused : forall C h s,
  hist C empty_st h s -> (N.of_nat (hist_inserts h) < 2 ^ 64)%N ->
  NoDup (acked_ids h).
Proof. intros C h s Hh Hb. apply (hist_ids C empty_st h s SInv_empty); [|done]. cbn. lia. Qed.
Print Assumptions C01_ids_never_reused.

(** Ids handed out later, in particular after a restart or crash, are larger. *)
Theorem C01_ids_grow : forall C h1 h2 s,
  hist C empty_st (h1 ++ h2) s -> (N.of_nat (hist_inserts (h1 ++ h2)) < 2 ^ 64)%N ->
  forall i j, i ∈ acked_ids h1 -> j ∈ acked_ids h2 -> (i < j)%N.
Proof.
  intros C h1 h2 s Hh Hb i j Hi Hj. destruct (hist_app_inv C _ _ _ _ Hh) as (s1 & H1 & H2). rewrite hist_inserts_app in Hb.
  destruct (hist_store C empty_st h1 s1 SInv_empty) as [HI Hc]; [change (cnt empty_st) with 0%N; lia|done|]. cbn [cnt empty_st] in Hc.
  destruct (hist_ids C empty_st h1 s1 SInv_empty ltac:(change (cnt empty_st) with 0%N; lia) H1) as [_ Hi1]. apply Hi1 in Hi.
  destruct (hist_ids C s1 h2 s HI ltac:(lia) H2) as [_ Hj1]. apply Hj1 in Hj. lia.
Qed.
Print Assumptions C01_ids_grow.

(** The same for ids that were used but never acknowledged: whatever is in the
    stores at some moment has a smaller id than everything accepted later. *)
Theorem C01_stored_keys_never_reused : forall C h1 h2 s1 s2 id ob,
  hist C empty_st h1 s1 -> hist C s1 h2 s2 -> (N.of_nat (hist_inserts (h1 ++ h2)) < 2 ^ 64)%N ->
  (id < 2 ^ 64)%N -> objs s1 !! le_put 8 id = Some ob \/ vecs s1 !! le_put 8 id = Some ob ->
  forall j, j ∈ acked_ids h2 -> (id < j)%N.
Proof.
  intros C h1 h2 s1 s2 id ob H1 H2 Hb Hid Ho j Hj. rewrite hist_inserts_app in Hb.
  destruct (hist_store C empty_st h1 s1 SInv_empty) as [HI Hc]; [change (cnt empty_st) with 0%N; lia|done|]. cbn [cnt empty_st] in Hc.
  destruct (hist_ids C s1 h2 s2 HI ltac:(lia) H2) as [_ Hj1]. apply Hj1 in Hj.
  destruct (si_keys _ HI (id_key id)) as (i & Ei & Hi).
  { destruct Ho as [Ho|Ho]; [left|right]; by eexists. }
  apply id_key_inj in Ei; [subst i; lia|done|lia].
Qed.
Print Assumptions C01_stored_keys_never_reused.

(** A history with a batch under a mixed schedule, a crash in the middle of an
    insert and a restart; its ids are 0, then 1 and 2, then 4. *)
Example C01_case : exists h s, hist ex_C empty_st h s /\ (N.of_nat (hist_inserts h) < 2 ^ 64)%N /\ acked_ids h = [0; 2; 1; 4]%N.
Proof.
  destruct (script_witness ex_C
    [ SCall (CInsert true 0 (Object 0 ∅ (Some [0]%N)));
      SBatch (CBatch true [(Object 0 ∅ (Some [1065353216]%N), 1); (Object 0 ∅ (Some [1073741824]%N), 0)]) [1; 0; 1; 0; 0] 200;
      SCrash (CInsert true 0 (Object 0 ∅ (Some [1077936128]%N))) [0; 0] 0; SRestart;
      SCall (CInsert true 0 (Object 0 ∅ (Some [1082130432]%N))) ]
    (fun h _ => (N.of_nat (hist_inserts h) <? 2 ^ 64)%N && bool_decide (acked_ids h = [0; 2; 1; 4]%N))) as (h & s & Hh & H).
  { vm_compute. reflexivity. }
  apply andb_true_iff in H as [H1 H2]. apply N.ltb_lt in H1. apply bool_decide_eq_true in H2. eauto.
Qed.

(** ** C05 Read your writes *)
Lemma assign_vec_some os er os' : assign_vecs os er = Val os' -> Forall (fun o => is_Some (o_vec o)) os'.
Proof.
  revert er os'. induction os as [|o os IH]; intros er os'; cbn [assign_vecs]; [intros <-%Val_inj; constructor|].
  unfold needs_vec. destruct (o_vec o) as [v|] eqn:Ev.
  - destruct (assign_vecs os er) as [l|e|z] eqn:E; [|done..]. intros <-%Val_inj. constructor; [by rewrite Ev|by eapply IH].
  - destruct er as [|v er]; [done|]. destruct (assign_vecs os er) as [l|e|z] eqn:E; [|done..]. intros <-%Val_inj.
    constructor; [by eexists|by eapply IH].
Qed.
Lemma embed_vec_some C os os' : embed_objects C os = Val os' -> Forall (fun o => is_Some (o_vec o)) os'.
Proof.
  unfold embed_objects. destruct (cp_embed C) as [E|].
  - destruct (E _) as [er|]; [|done]. apply assign_vec_some.
  - destruct (existsb needs_vec os) eqn:Eb; [done|]. intros <-%Val_inj. apply Forall_forall. intros o Ho.
    destruct (o_vec o) eqn:Ev; [by eexists|]. exfalso.
    assert (existsb needs_vec os = true); [|congruence]. apply existsb_exists. exists o. split; [by apply elem_of_list_In|].
    unfold needs_vec. by rewrite Ev.
Qed.
(** The same object as far as the caller determined it. *)
Definition completes (o0 o : object) : Prop :=
  o_props o = o_props o0 /\ (forall v, o_vec o0 = Some v -> o_vec o = Some v).
Lemma assign_completes os er os' : assign_vecs os er = Val os' -> Forall2 completes os os'.
Proof.
  revert er os'. induction os as [|o os IH]; intros er os'; cbn [assign_vecs]; [intros <-%Val_inj; constructor|].
  unfold needs_vec. destruct (o_vec o) as [v|] eqn:Ev.
  - destruct (assign_vecs os er) as [l|e|z] eqn:E; [|done..]. intros <-%Val_inj. constructor; [done|by eapply IH].
  - destruct er as [|v er]; [done|]. destruct (assign_vecs os er) as [l|e|z] eqn:E; [|done..]. intros <-%Val_inj.
    constructor; [|by eapply IH]. split; [done|]. cbn. rewrite Ev. by intros v' [=].
Qed.
Lemma embed_completes C os os' : embed_objects C os = Val os' -> Forall2 completes os os'.
Proof.
  unfold embed_objects. destruct (cp_embed C) as [E|].
  - destruct (E _) as [er|]; [|done]. apply assign_completes.
  - destruct (existsb needs_vec os); [done|]. intros <-%Val_inj. clear. induction os as [|o os IH]; constructor; [by split|done].
Qed.

Lemma acked_stored C s e s' o :
  SInv s -> (cnt s + N.of_nat (ev_inserts e) < 2 ^ 64)%N -> ev_step C s e s' -> o ∈ acked e ->
  stored C s' o /\ (o_id o < cnt s')%N /\ is_Some (o_vec o) /\
  exists c r o0, e = EvCall c r /\ o0 ∈ submitted c /\ completes o0 o.
Proof.
  intros HI Hm Hs Ho. destruct (ev_step_store C s e s' HI Hm Hs) as (HI2 & ids & Hw).
  pose proof (ew_acked _ _ _ _ _ Hw) as Ha. rewrite Forall_forall in Ha. destruct (Ha o Ho) as [Hid Hst].
  split; [done|]. split; [by apply (ew_range _ _ _ _ _ Hw)|].
  destruct (ew_src _ _ _ _ _ Hw) as [E|(c & r & os & -> & He & Hp)]; [rewrite E in Ho; by apply elem_of_nil in Ho|].
  rewrite Forall_forall in Hp. specialize (Hp o Ho). apply elem_of_list_fmap in Hp as (o1 & E1 & Ho1).
  unfold payload in E1. apply pair_inj in E1 as [E1 E2].
  pose proof (embed_vec_some _ _ _ He) as Hv. rewrite Forall_forall in Hv. specialize (Hv o1 Ho1). rewrite E2. split; [done|].
  apply elem_of_list_lookup in Ho1 as (i & Hi).
  destruct (Forall2_lookup_r _ _ _ _ _ (embed_completes _ _ _ He) Hi) as (o0 & Hi0 & [C1 C2]).
  exists c, r, o0. split; [done|]. split; [by eapply elem_of_list_lookup_2|]. split; [congruence|]. intros v Hv0. rewrite E2. by apply C2.
Qed.

Lemma acked_found C h1 c r h2 s o :
  hist C empty_st (h1 ++ EvCall c r :: h2) s -> (N.of_nat (hist_inserts (h1 ++ EvCall c r :: h2)) < 2 ^ 64)%N ->
  closed s = false -> (cp_maxval C < 2 ^ 32)%N ->
  o ∈ acked (EvCall c r) -> existsb (ev_deletes (o_id o)) h2 = false ->
  json_ok (cp_json C) (o_props o) -> Forall (fun f => (f < 2 ^ 32)%N) (default [] (o_vec o)) ->
  get_object (cp_json C) s (o_id o) = Val (Some o) /\
  exists o0, o0 ∈ submitted c /\ completes o0 o.
Proof.
  intros Hh Hb Hc Hm Ho Hd Hj Hf.
  destruct (hist_app_inv C _ _ _ _ Hh) as (s1 & H1 & H2). change (EvCall c r :: h2) with ([EvCall c r] ++ h2) in H2.
  destruct (hist_app_inv C _ _ _ _ H2) as (s2 & H3 & H4). rewrite hist_inserts_app in Hb.
  assert (Hb2 : hist_inserts (EvCall c r :: h2) = ev_inserts (EvCall c r) + hist_inserts h2) by done.
  rewrite Hb2 in Hb.
  destruct (hist_store C empty_st h1 s1 SInv_empty) as [HI1 Hc1]; [change (cnt empty_st) with 0%N; lia|done|]. change (cnt empty_st) with 0%N in Hc1.
  inversion H3 as [|h e sa sb Ha Hs E]; subst. change [EvCall c r] with ([] ++ [EvCall c r]) in E. apply app_inj_tail in E as [-> ->].
  assert (sa = s1) as ->. { inversion Ha as [|h' e' ? ? ? ? E]; [done|]. by destruct h'. }
  destruct (acked_stored C s1 (EvCall c r) s2 o HI1 ltac:(lia) Hs Ho) as (Hst & Hid & [v Hv] & c' & r' & o0 & [= <- <-] & Hin & Hcm).
  destruct (ev_step_store C s1 (EvCall c r) s2 HI1 ltac:(lia) Hs) as (HI2 & ids & Hw). pose proof (ew_cnt _ _ _ _ _ Hw) as Hcc.
  destruct (hist_keep C s2 h2 s (o_id o) HI2 ltac:(lia) H4 Hid) as [K1 K2].
  split; [|by exists o0].
  assert (Hst' : stored C s o).
  { destruct Hst as (ob & vb & A1 & A2 & A3 & A4 & A5 & A6). exists ob, vb. split_and!; try done; [|congruence].
    destruct K2 as [K2|[_ K2]]; [congruence|]. rewrite Hd in K2. done. }
  pose proof (stored_get C s o Hst' Hc Hm Hj Hf) as Hg. rewrite Hg. unfold vec_or_nil. rewrite Hv. destruct o. cbn in Hv |- *. by subst.
Qed.

Theorem C05_read_your_writes : forall C h1 c r h2 s o,
  hist C empty_st (h1 ++ EvCall c r :: h2) s -> (N.of_nat (hist_inserts (h1 ++ EvCall c r :: h2)) < 2 ^ 64)%N ->
  closed s = false -> (cp_maxval C < 2 ^ 32)%N ->
  o ∈ acked (EvCall c r) -> existsb (ev_deletes (o_id o)) h2 = false ->
  json_ok (cp_json C) (o_props o) -> Forall (fun f => (f < 2 ^ 32)%N) (default [] (o_vec o)) ->
  exec (CollModel.get C [o_id o]) s = Some (s, Val [o]) /\
  exists o0, o0 ∈ submitted c /\ o_props o = o_props o0 /\ (forall v, o_vec o0 = Some v -> o_vec o = Some v).
Proof.
  intros C h1 c r h2 s o Hh Hb Hc Hm Ho Hd Hj Hf.
  destruct (acked_found C h1 c r h2 s o Hh Hb Hc Hm Ho Hd Hj Hf) as [Hg Hs]. split; [|done].
  unfold CollModel.get. rewrite exec_act, Hc. cbn [get_objects]. by rewrite Hg.
Qed.
Print Assumptions C05_read_your_writes.

(** Insert, then a batch, a delete of another id, a crash and a restart. *)
Example C05_case : exists h1 c r h2 s o,
  hist ex_C_a empty_st (h1 ++ EvCall c r :: h2) s /\ (N.of_nat (hist_inserts (h1 ++ EvCall c r :: h2)) < 2 ^ 64)%N /\
  closed s = false /\ (cp_maxval ex_C_a < 2 ^ 32)%N /\ o ∈ acked (EvCall c r) /\ length h2 = 5 /\
  existsb (ev_deletes (o_id o)) h2 = false /\ json_ok (cp_json ex_C_a) (o_props o) /\
  Forall (fun f => (f < 2 ^ 32)%N) (default [] (o_vec o)).
Proof.
  destruct (script_witness ex_C_a
    [ SCall (CInsert true 0 (ob_a 1 [0]%N));
      SCall (CInsert true 1 (ob_a 2 [1065353216]%N));
      SBatch (CBatch2 true [(ob_a 3 [1065353216]%N, 1); (ob_a 4 [1073741824]%N, 0)]) [1; 0; 1; 0; 0] 200;
      SCall (CDelete true 0); SCall (CSearch (ob_a 0 [0]%N) 3);
      SCrash (CInsert true 0 (ob_a 5 [1077936128]%N)) [0; 0] 0; SRestart ]
    (fun h s => match h with
                | e :: EvCall c r :: h2 =>
                    match acked (EvCall c r) with
                    | [o] =>
                      (N.of_nat (hist_inserts h) <? 2 ^ 64)%N && negb (closed s) && bool_decide (length h2 = 5) &&
                      negb (existsb (ev_deletes (o_id o)) h2) && bool_decide (o_vec o = Some [1065353216%N]) &&
                      match j_enc ex_json (o_props o) with Some _ => true | _ => false end
                    | _ => false
                    end
                | _ => false
                end)) as (h & s & Hh & H).
  { vm_compute. reflexivity. }
  destruct h as [|e [|[c r| |] h2]]; try done.
  destruct (acked (EvCall c r)) as [|o [|]] eqn:Ea; try done.
  repeat (apply andb_true_iff in H as [H ?]). apply N.ltb_lt in H.
  exists [e], c, r, h2, s, o.
  rewrite Ea. split; [done|]. split; [done|]. split; [by destruct (closed s)|]. split; [done|]. split; [by left|].
  split; [by eapply bool_decide_eq_true_1|]. split; [by destruct (existsb _ _)|]. split.
  - destruct (j_enc ex_json (o_props o)) as [b|] eqn:Ej; [|done]. exists b. split; [done|]. by apply ex_json_exact.
  - match goal with E : bool_decide (o_vec o = _) = true |- _ => apply bool_decide_eq_true_1 in E as -> end. repeat constructor.
Qed.

(** ** C07 Deleted objects stay deleted *)
(** The ids a reply shows to the caller. *)
Definition shown (e : event) : list N :=
  match e with
  | EvCall _ (RGet (Val os)) => o_id <$> os
  | EvCall _ (RSearch (Val (_, hs))) => h_id <$> hs
  | _ => []
  end.
Lemma hist_one C s e s' : hist C s [e] s' -> ev_step C s e s'.
Proof.
  intros H. inversion H as [|h e' sa sb Ha Hs E]; subst. change [e] with ([] ++ [e]) in E. apply app_inj_tail in E as [-> ->].
  inversion Ha as [|h' e' ? ? ? ? E]; [by subst|]. by destruct h'.
Qed.
Lemma shown_get C s e s' id :
  ev_step C s e s' -> id ∈ shown e -> exists o, get_object (cp_json C) s id = Val (Some o).
Proof.
  intros Hs Hin. destruct e as [c r| |]; [|by apply elem_of_nil in Hin..].
  inversion Hs as [c' s1 r' Hr| |]; subst.
  destruct r as [r|r rs|r|r|r|r]; cbn in Hin; try (by apply elem_of_nil in Hin).
  - destruct r as [os|e|z]; [|by apply elem_of_nil in Hin..]. inversion Hr as [| | | | | |ids s1 r1 Hx| | | | ]; subst.
    unfold CollModel.get in Hx. rewrite exec_act in Hx. apply Some_pair_inj in Hx as [_ Hx]. destruct (closed s); [done|].
    apply elem_of_list_fmap in Hin as (o & -> & Ho). exists o. by eapply get_objects_in.
  - destruct r as [[n hs]|e|z]; [|by apply elem_of_nil in Hin..]. inversion Hr as [| | | | | | |o k s1 r1 Hx| | | ]; subst.
    apply elem_of_list_fmap in Hin as (x & -> & Hxx). by eapply search_hits.
Qed.
Lemma hist_split C s h1 e h2 s' : hist C s (h1 ++ e :: h2) s' -> exists s1 s2, hist C s h1 s1 /\ ev_step C s1 e s2 /\ hist C s2 h2 s'.
Proof.
  intros H. destruct (hist_app_inv C _ _ _ _ H) as (s1 & H1 & H2). change (e :: h2) with ([e] ++ h2) in H2.
  destruct (hist_app_inv C _ _ _ _ H2) as (s2 & H3 & H4). exists s1, s2. split; [done|]. split; [by apply hist_one|done].
Qed.
Lemma hist_inserts_cons e h : hist_inserts (e :: h) = ev_inserts e + hist_inserts h. Proof. done. Qed.
Lemma hist0 C h s : hist C empty_st h s -> (N.of_nat (hist_inserts h) < 2 ^ 64)%N -> SInv s /\ (cnt s <= N.of_nat (hist_inserts h))%N.
Proof.
  intros Hh Hb. destruct (hist_store C empty_st h s SInv_empty) as [HI Hc]; [change (cnt empty_st) with 0%N; lia|done|].
  change (cnt empty_st) with 0%N in Hc. split; [done|lia].
Qed.

(** A known id is one that was acknowledged or seen in an answer. *)
Lemma known_issued C h s id :
  hist C empty_st h s -> (N.of_nat (hist_inserts h) < 2 ^ 64)%N -> (id < 2 ^ 64)%N ->
  id ∈ acked_ids h \/ (exists e, e ∈ h /\ id ∈ shown e) -> (id < cnt s)%N.
Proof.
  intros Hh Hb Hid [Hk|(e & He & Hk)].
  - destruct (hist_ids C empty_st h s SInv_empty) as [_ H]; [change (cnt empty_st) with 0%N; lia|done|]. by apply H.
  - apply elem_of_list_split in He as (h1 & h2 & ->). destruct (hist_split _ _ _ _ _ _ Hh) as (s1 & s2 & H1 & H2 & H3).
    rewrite hist_inserts_app, hist_inserts_cons in Hb.
    destruct (hist0 _ _ _ H1) as [HI Hc]; [lia|]. destruct (shown_get _ _ _ _ _ H2 Hk) as (o & Ho).
    apply get_object_key_id in Ho; [|done|lia|done].
    destruct (ev_step_store C s1 e s2 HI ltac:(lia) H2) as (HI2 & ids & Hw). pose proof (ew_cnt _ _ _ _ _ Hw) as Hcc.
    destruct (hist_store C s2 h2 s HI2 ltac:(lia) H3) as [_ Hc3]. lia.
Qed.

Theorem C07_deleted_stays_deleted : forall C h1 io id h2 s,
  hist C empty_st (h1 ++ EvCall (CDelete io id) (RUnit (Val tt)) :: h2) s ->
  (N.of_nat (hist_inserts (h1 ++ EvCall (CDelete io id) (RUnit (Val tt)) :: h2)) < 2 ^ 64)%N -> (id < 2 ^ 64)%N ->
  id ∈ acked_ids h1 \/ (exists e, e ∈ h1 /\ id ∈ shown e) ->
  forall e, e ∈ h2 -> id ∉ shown e.
Proof.
  intros C h1 io id h2 s Hh Hb Hid Hk e He Hin.
  destruct (hist_split _ _ _ _ _ _ Hh) as (s1 & s2 & H1 & H2 & H3). rewrite hist_inserts_app, hist_inserts_cons in Hb.
  destruct (hist0 _ _ _ H1) as [HI1 Hc1]; [lia|].
  pose proof (known_issued C h1 s1 id H1 ltac:(lia) Hid Hk) as Hlt.
  destruct (ev_step_store C s1 (EvCall (CDelete io id) (RUnit (Val tt))) s2 HI1 ltac:(cbn [ev_inserts submitted length] in *; lia) H2) as (HI2 & ids & Hw). pose proof (ew_cnt _ _ _ _ _ Hw) as Hcc.
  cbn [ev_inserts submitted length] in Hcc, Hb.
  pose proof (ew_del _ _ _ _ _ Hw _ _ eq_refl) as Hgone.
  apply elem_of_list_split in He as (h3 & h4 & ->). destruct (hist_split _ _ _ _ _ _ H3) as (s3 & s4 & H5 & H6 & H7).
  rewrite hist_inserts_app, hist_inserts_cons in Hb.
  destruct (hist_keep C s2 h3 s3 id HI2 ltac:(lia) H5 ltac:(lia)) as [K1 K2].
  destruct (shown_get _ _ _ _ _ H6 Hin) as (o & Ho). apply get_object_some in Ho as (_ & [ob Eo] & [vb Ev]).
  destruct Hgone as [E|E]; [|congruence]. destruct K2 as [K2|[K2 _]]; congruence.
Qed.
Print Assumptions C07_deleted_stays_deleted.

(** Also in the answers the final state would give. *)
Theorem C07_deleted_not_found : forall C h1 io id h2 s,
  hist C empty_st (h1 ++ EvCall (CDelete io id) (RUnit (Val tt)) :: h2) s ->
  (N.of_nat (hist_inserts (h1 ++ EvCall (CDelete io id) (RUnit (Val tt)) :: h2)) < 2 ^ 64)%N -> (id < 2 ^ 64)%N ->
  id ∈ acked_ids h1 \/ (exists e, e ∈ h1 /\ id ∈ shown e) ->
  (forall ids s' os, exec (CollModel.get C ids) s = Some (s', Val os) -> id ∉ o_id <$> os) /\
  (forall o k s' n hs, exec (semantic_search C 0 o k) s = Some (s', Val (n, hs)) -> id ∉ h_id <$> hs).
Proof.
  intros C h1 io id h2 s Hh Hb Hid Hk. split.
  - intros ids s' os Hx.
    assert (Hh' : hist C empty_st (h1 ++ EvCall (CDelete io id) (RUnit (Val tt)) :: (h2 ++ [EvCall (CGet ids) (RGet (Val os))])) s').
    { change (EvCall (CDelete io id) (RUnit (Val tt)) :: (h2 ++ [EvCall (CGet ids) (RGet (Val os))]))
        with ((EvCall (CDelete io id) (RUnit (Val tt)) :: h2) ++ [EvCall (CGet ids) (RGet (Val os))]).
      rewrite app_assoc. econstructor; [exact Hh|]. constructor. by constructor. }
    apply (C07_deleted_stays_deleted _ _ _ _ _ _ Hh') with (e := EvCall (CGet ids) (RGet (Val os))); [|done|done|set_solver].
    rewrite hist_inserts_app, hist_inserts_cons in Hb |- *. rewrite hist_inserts_app. cbn [hist_inserts] in *. unfold hist_inserts at 3. cbn. lia.
  - intros o k s' n hs Hx.
    assert (Hh' : hist C empty_st (h1 ++ EvCall (CDelete io id) (RUnit (Val tt)) :: (h2 ++ [EvCall (CSearch o k) (RSearch (Val (n, hs)))])) s').
    { change (EvCall (CDelete io id) (RUnit (Val tt)) :: (h2 ++ [EvCall (CSearch o k) (RSearch (Val (n, hs)))]))
        with ((EvCall (CDelete io id) (RUnit (Val tt)) :: h2) ++ [EvCall (CSearch o k) (RSearch (Val (n, hs)))]).
      rewrite app_assoc. econstructor; [exact Hh|]. constructor. by constructor. }
    apply (C07_deleted_stays_deleted _ _ _ _ _ _ Hh') with (e := EvCall (CSearch o k) (RSearch (Val (n, hs)))); [|done|done|set_solver].
    rewrite hist_inserts_app, hist_inserts_cons in Hb |- *. rewrite hist_inserts_app. unfold hist_inserts at 3. cbn. lia.
Qed.
Print Assumptions C07_deleted_not_found.

(** Both ids were seen; 1 is deleted, then a search after a restart shows 0 only. *)
Example C07_case : exists h1 h2 s,
  hist ex_C empty_st (h1 ++ EvCall (CDelete true 1) (RUnit (Val tt)) :: h2) s /\
  (N.of_nat (hist_inserts (h1 ++ EvCall (CDelete true 1) (RUnit (Val tt)) :: h2)) < 2 ^ 64)%N /\
  1%N ∈ acked_ids h1 /\ 1%N ∈ mjoin (shown <$> h1) /\ mjoin (shown <$> h2) = [0%N].
Proof.
  destruct (script_witness ex_C
    [ SCall (CInsert true 0 (Object 0 ∅ (Some [0]%N))); SCall (CInsert true 1 (Object 0 ∅ (Some [1065353216]%N)));
      SCall (CSearch (Object 0 ∅ (Some [1073741824]%N)) 5);
      SCall (CDelete true 1); SRestart; SCall (CSearch (Object 0 ∅ (Some [1073741824]%N)) 5); SCall (CGet [1]%N) ]
    (fun h _ => match h with
                | [e1; e2; e3; EvCall (CDelete true 1%N) (RUnit (Val tt)); e4; e5; e6] =>
                    (N.of_nat (hist_inserts h) <? 2 ^ 64)%N && bool_decide (acked_ids [e1; e2; e3] = [0; 1]%N) &&
                    bool_decide (mjoin (shown <$> [e1; e2; e3]) = [1; 0]%N) &&
                    bool_decide (mjoin (shown <$> [e4; e5; e6]) = [0]%N)
                | _ => false
                end)) as (h & s & Hh & H).
  { vm_compute. reflexivity. }
  destruct h as [|e1 [|e2 [|e3 [|e [|e4 [|e5 [|e6 [|]]]]]]]]; try done. 
  all: destruct e as [c r| |]; try done; destruct c as [| | |io id| | | | | ]; try done; destruct io; try done;
    destruct id as [|[| |]]; try done; destruct r as [| |r| | | ]; try done; destruct r as [[]| |]; try done.
  repeat (apply andb_true_iff in H as [H ?]). apply N.ltb_lt in H.
  exists [e1; e2; e3], [e4; e5; e6], s. split; [done|]. split; [done|].
  repeat match goal with E : bool_decide (?a = _) = true |- _ => apply bool_decide_eq_true_1 in E; rewrite E end. split_and!; [set_solver..|done].
Qed.

(** ** C06 Get returns exactly the requested live objects in order *)
(** [live h L]: the map [L] from ids to objects agrees with the history [h]. *)
Record live (C : cparams) (h : list event) (L : N -> option object) : Prop := Live {
  (** an acknowledged and not deleted object is there, *)
  lv_acked : forall h1 c r h2 o, h = h1 ++ EvCall c r :: h2 -> o ∈ acked (EvCall c r) ->
    existsb (ev_deletes (o_id o)) h2 = false ->
    json_ok (cp_json C) (o_props o) -> Forall (fun f => (f < 2 ^ 32)%N) (default [] (o_vec o)) ->
    L (o_id o) = Some o;
  (** a deleted one is not, *)
  lv_deleted : forall h1 io id h2, h = h1 ++ EvCall (CDelete io id) (RUnit (Val tt)) :: h2 -> (id < 2 ^ 64)%N ->
    id ∈ acked_ids h1 \/ (exists e, e ∈ h1 /\ id ∈ shown e) -> L id = None;
  (** every entry carries its id, and that id was handed out. *)
  lv_id : forall id o, L id = Some o -> o_id o = id;
  lv_issued : forall id o, (id < 2 ^ 64)%N -> L id = Some o -> (id < N.of_nat (hist_inserts h))%N
}.
Theorem C06_get_is_lookup_in_order : forall C h s,
  hist C empty_st h s -> (N.of_nat (hist_inserts h) < 2 ^ 64)%N ->
  closed s = false -> (cp_maxval C < 2 ^ 32)%N -> json_total (cp_json C) ->
  exists L, live C h L /\ forall ids, exec (CollModel.get C ids) s = Some (s, Val (omap L ids)).
Proof.
  intros C h s Hh Hb Hc Hm Hj. pose proof (hist_enc C _ _ _ Hh (enc_empty C)) as He.
  pose proof (enc_get_object C s He Hm Hj Hc) as Hg.
  exists (fun id => match get_object (cp_json C) s id with Val x => x | _ => None end). split.
  - split.
    + intros h1 c r h2 o -> Ho Hd Hjo Hf. by destruct (acked_found C h1 c r h2 s o Hh Hb Hc Hm Ho Hd Hjo Hf) as [-> _].
    + intros h1 io id h2 -> Hid Hk. destruct (Hg id) as (x & Hx & _). rewrite Hx. destruct x as [o|]; [exfalso|done].
      destruct (C07_deleted_not_found C h1 io id h2 s Hh Hb Hid Hk) as [H _]. apply (H [id] s [o]).
      * unfold CollModel.get. rewrite exec_act, Hc. cbn [get_objects]. by rewrite Hx.
      * apply get_object_id in Hx. rewrite <- Hx. set_solver.
    + intros id o. destruct (Hg id) as (x & Hx & _). rewrite Hx. intros ->. by eapply get_object_id.
    + intros id o Hid. destruct (Hg id) as (x & Hx & _). rewrite Hx. intros ->.
      destruct (hist0 _ _ _ Hh Hb) as [HI Hc2]. apply get_object_key_id in Hx; [lia|done|lia|done].
  - intros ids. unfold CollModel.get. rewrite exec_act, Hc. do 2 f_equal. apply get_objects_omap.
    intros id. by destruct (Hg id) as (x & -> & _).
Qed.
Print Assumptions C06_get_is_lookup_in_order.

(** Ids 0..3 were handed out, 1 was deleted; Get of 3,1,7,0,3 yields 3,0,3. *)
Example C06_case : exists h s, hist ex_C_a empty_st h s /\ (N.of_nat (hist_inserts h) < 2 ^ 64)%N /\ closed s = false /\
  (cp_maxval ex_C_a < 2 ^ 32)%N /\ json_total (cp_json ex_C_a) /\
  exists os, exec (CollModel.get ex_C_a [3; 1; 7; 0; 3]%N) s = Some (s, Val os) /\ o_id <$> os = [3; 0; 3]%N.
Proof.
  destruct (script_witness ex_C_a
    [ SCall (CInsert true 0 (ob_a 1 [0]%N)); SCall (CInsert true 1 (ob_a 2 [1065353216]%N));
      SBatch (CBatch2 true [(ob_a 3 [1065353216]%N, 1); (ob_a 4 [1073741824]%N, 0)]) [1; 0; 1; 0; 0] 200;
      SCall (CDelete true 1); SRestart ]
    (fun h s => (N.of_nat (hist_inserts h) <? 2 ^ 64)%N && negb (closed s) &&
       match get_objects ex_json s [3; 1; 7; 0; 3]%N with Val os => bool_decide (o_id <$> os = [3; 0; 3]%N) | _ => false end))
    as (h & s & Hh & H).
  { vm_compute. reflexivity. }
  repeat (apply andb_true_iff in H as [H ?]). apply N.ltb_lt in H.
  assert (Hc : closed s = false) by (by destruct (closed s)). 
  exists h, s. split; [done|]. split; [done|]. split; [done|]. split; [done|]. split; [apply ex_json_total|].
  unfold CollModel.get. rewrite exec_act, Hc. change (cp_json ex_C_a) with ex_json.
  destruct (get_objects ex_json s [3; 1; 7; 0; 3]%N) as [os| |]; [|done..]. exists os. split; [done|]. by eapply bool_decide_eq_true_1.
Qed.

(** ** C08 GetSize counts the live objects *)
(** An object whose vector does not fit into a store entry: Insert fails after
    the properties have been written. *)
Lemma oversized_insert C js (v : fvec) level :
  cp_embed C = None -> cp_mappings C = [] -> j_enc (cp_json C) ∅ = Some js ->
  (N.of_nat (4 + length js) <= cp_maxval C < N.of_nat (4 + 4 * length v))%N ->
  exists b, exec (CollModel.insert C 0 true level (Object 0 ∅ (Some v))) empty_st =
    Some (set_objs {[id_key 0 := b]} (set_cnt 1 (le_put 8 1) empty_st), Err EValueTooLarge).
Proof.
  intros He Hm Hj Hl. exists (le_put 4 (u32 (N.of_nat (length js))) ++ js). unfold CollModel.insert.
  rewrite exec_bind. unfold check_open. rewrite exec_act. cbn [closed empty_st].
  rewrite exec_bind, exec_lift. unfold validate_objects. rewrite Hm. cbn [length o_props]. change (size (∅ : props)) with 0. cbn [Nat.ltb Nat.leb check_mappings mbind out_bind].
  rewrite exec_bind, exec_lift. unfold embed_objects. rewrite He. cbn [existsb needs_vec o_vec orb].
  rewrite exec_bind. unfold insert_one. rewrite exec_bind. unfold fetch_and_inc. rewrite exec_act. cbn [closed empty_st cnt cfile drop app].
  rewrite app_nil_r. unfold put_object. cbn [o_props o_id].
  rewrite !exec_bind, exec_lift, (ser_props_eq _ _ _ Hj). rewrite !exec_bind, exec_lift, ser_vec_eq.
  rewrite exec_bind, exec_act. unfold bc_put.
  rewrite app_length, le_put_length. rewrite (proj2 (N.ltb_ge _ _)) by lia. cbn [closed set_cnt empty_st]. rewrite exec_act.
  unfold vec_or_nil. cbn [o_vec default from_option id vecs set_objs set_cnt empty_st].
  rewrite (proj2 (N.ltb_lt _ _)); [done|]. rewrite app_length, le_put_length, le_floats_length. cbn [id]. lia.
Qed.

Definition big_vec : fvec := replicate (N.to_nat 16384) 0%N.
Lemma big_vec_fact : (N.of_nat (4 + length [123; 125]%N) <= 65536 < N.of_nat (4 + 4 * length big_vec))%N.
Proof. unfold big_vec. rewrite replicate_length. cbn [length]. lia. Qed.

(** With bitcask's limit of 65536 bytes, one failed Insert of a vector of
    16384 components makes GetSize answer 1 although no id can be read. *)
Theorem C08_size_counts_live_refuted : exists C h s,
  hist C empty_st h s /\ cp_maxval C = 65536%N /\ json_exact (cp_json C) /\
  exec get_size s = Some (s, Val 1) /\ forall ids, exec (CollModel.get C ids) s = Some (s, Val []).
Proof.
  destruct (oversized_insert ex_C [123; 125]%N big_vec 0 eq_refl eq_refl eq_refl big_vec_fact) as (b & Hx).
  eexists ex_C, [EvCall (CInsert true 0 (Object 0 ∅ (Some big_vec))) (RIns (Err EValueTooLarge))], _. split.
  - change [EvCall (CInsert true 0 (Object 0 ∅ (Some big_vec))) (RIns (Err EValueTooLarge))]
      with ([] ++ [EvCall (CInsert true 0 (Object 0 ∅ (Some big_vec))) (RIns (Err EValueTooLarge))]).
    econstructor; [constructor|]. constructor. constructor. exact Hx.
  - split; [done|]. split; [apply ex_json_exact|]. split.
    + unfold get_size. rewrite exec_act. cbn [closed set_objs set_cnt empty_st]. unfold store_size. cbn [objs set_objs]. by rewrite map_size_singleton.
    + intros ids. unfold CollModel.get. rewrite exec_act. cbn [closed set_objs set_cnt empty_st].
      do 2 f_equal. rewrite (get_objects_omap ex_C _ ids (fun _ => None)).
      { f_equal. induction ids; [done|]. cbn. done. }
      intros id. unfold get_object. destruct (objs _ !! _); [|done]. cbn [closed set_objs set_cnt empty_st vecs]. by rewrite lookup_empty.
Qed.
Print Assumptions C08_size_counts_live_refuted.

(** Missing for the full claim: histories in which a vector exceeds the
    store's limit or the process dies in the middle of an insert. *)
Theorem C08_size_counts_live_partial : forall C h s,
  hist C empty_st h s -> (N.of_nat (hist_inserts h) < 2 ^ 64)%N ->
  closed s = false -> (cp_maxval C < 2 ^ 32)%N -> json_total (cp_json C) ->
  Forall (ev_fits C) h ->
  exists ids, NoDup ids /\ Forall (fun id => (id < 2 ^ 64)%N) ids /\
    exec get_size s = Some (s, Val (length ids)) /\
    forall id, (id < 2 ^ 64)%N -> (id ∈ ids <-> exists o, exec (CollModel.get C [id]) s = Some (s, Val [o])).
Proof.
  intros C h s Hh Hb Hc Hm Hj Hf. pose proof (hist_enc C _ _ _ Hh (enc_empty C)) as He.
  pose proof (enc_get_object C s He Hm Hj Hc) as Hg. destruct (hist0 _ _ _ Hh Hb) as [HI Hcnt].
  assert (Hp : forall k, is_Some (objs s !! k) -> is_Some (vecs s !! k)).
  { eapply (hist_paired C h empty_st s SInv_empty); [change (cnt empty_st) with 0%N; lia|done|done|].
    intros k [x Hx]. cbn in Hx. by rewrite lookup_empty in Hx. }
  pose (dec := fun k : bytes => default 0%N (le_get 8 k)).
  assert (Hdec : forall id, (id < 2 ^ 64)%N -> dec (id_key id) = id).
  { intros id Hid. unfold dec, id_key. rewrite <- (app_nil_r (le_put 8 id)), le_get_put_app; [done|]. by rewrite pow256_8. }
  clearbody dec.
  assert (Hkey : forall k, is_Some (objs s !! k) -> id_key (dec k) = k /\ (dec k < cnt s)%N).
  { intros k Hk. destruct (si_keys _ HI k) as (i & -> & Hi); [by left|]. rewrite Hdec by lia. done. }
  exists (dec <$> (map_to_list (objs s)).*1). split_and!.
  - apply NoDup_fmap_2_strong; [|apply NoDup_fst_map_to_list].
    intros k1 k2 [[k1' b1] [-> H1]]%elem_of_list_fmap [[k2' b2] [-> H2]]%elem_of_list_fmap E. cbn in *.
    apply elem_of_map_to_list in H1, H2. destruct (Hkey k1') as [<- _]; [by eexists|]. destruct (Hkey k2') as [<- _]; [by eexists|]. by rewrite E.
  - apply Forall_fmap, Forall_forall. intros k [[k1 b1] [-> H1]]%elem_of_list_fmap. apply elem_of_map_to_list in H1. cbn.
    destruct (Hkey k1) as [_ H]; [by eexists|]. lia.
  - unfold get_size. rewrite exec_act, Hc. by rewrite !fmap_length.
  - intros id Hid. destruct (Hg id) as (x & Hx & Hxs). unfold CollModel.get. rewrite exec_act, Hc. cbn [get_objects]. rewrite Hx. cbn [mbind out_bind].
    split.
    + intros (k & -> & Hk)%elem_of_list_fmap. apply elem_of_list_fmap in Hk as ([k1 b1] & -> & Hk). apply elem_of_map_to_list in Hk. cbn in *.
      destruct (Hkey k1) as [E _]; [by eexists|]. rewrite E in Hxs. destruct (proj2 Hxs) as [o ->]; [split; [by eexists|apply Hp; by eexists]|]. eauto.
    + intros (o & E). destruct x as [o'|]; [|done]. destruct (proj1 Hxs) as [[b Hbb] _]; [by eexists|].
      apply elem_of_list_fmap. exists (id_key id). split; [by rewrite Hdec|]. apply elem_of_list_fmap. exists (id_key id, b). split; [done|].
      by apply elem_of_map_to_list.
Qed.
Print Assumptions C08_size_counts_live_partial.

(** The history may contain rejected inserts, batches, deletes and restarts. *)
Example C08_case : exists h s, hist ex_C_a empty_st h s /\ (N.of_nat (hist_inserts h) < 2 ^ 64)%N /\ closed s = false /\
  (cp_maxval ex_C_a < 2 ^ 32)%N /\ json_total (cp_json ex_C_a) /\ Forall (ev_fits ex_C_a) h /\
  exec get_size s = Some (s, Val 2) /\ length h = 6.
Proof.
  destruct (script_witness ex_C_a
    [ SCall (CInsert true 0 (ob_a 1 [0]%N)); SCall (CInsert true 0 (ob_a 11 [0]%N));
      SBatch (CBatch2 true [(ob_a 3 [1065353216]%N, 1); (ob_a 4 [1073741824]%N, 0)]) [1; 0; 1; 0; 0] 200;
      SCall (CDelete true 2); SRestart; SCall (CInsert true 0 (Object 0 ∅ (Some [0]%N))) ]
    (fun h s => (N.of_nat (hist_inserts h) <? 2 ^ 64)%N && negb (closed s) && bool_decide (store_size s = 2) && bool_decide (length h = 6) &&
       forallb (fun e => match e with EvCall c _ => forallb (fun o => match o_vec o with Some [_] => true | _ => false end) (submitted c) | EvRestart => true | _ => false end) h))
    as (h & s & Hh & H).
  { vm_compute. reflexivity. }
  repeat (apply andb_true_iff in H as [H ?]). apply N.ltb_lt in H.
  assert (Hc : closed s = false) by (by destruct (closed s)). 
  exists h, s. split; [done|]. split; [done|]. split; [done|]. split; [done|]. split; [apply ex_json_total|].
  split_and!; [|unfold get_size; rewrite exec_act, Hc; do 3 f_equal|]; [|by eapply bool_decide_eq_true_1..].
  apply Forall_forall. intros e He. apply elem_of_list_In in He.
  match goal with E : forallb _ h = true |- _ => rewrite forallb_forall in E; specialize (E e He); rename E into Hf end.
  destruct e as [c r| |]; [|done..]. intros os Hos. unfold embed_objects in Hos. cbn [cp_embed ex_C_a] in Hos.
  destruct (existsb needs_vec (submitted c)); [done|]. apply Val_inj in Hos as <-.
  apply Forall_forall. intros o Ho. apply elem_of_list_In in Ho. rewrite forallb_forall in Hf. specialize (Hf o Ho).
  unfold fits, vec_or_nil. destruct (o_vec o) as [[|x [|]]|]; try done.
Qed.

(** ** C09 A rejected insert leaves nothing behind *)
Theorem C09_rejected_insert_refuted : exists C s level o s' e,
  hist C empty_st [] s /\ cp_maxval C = 65536%N /\ json_exact (cp_json C) /\
  exec (CollModel.insert C 0 true level o) s = Some (s', Err e) /\
  exec get_size s = Some (s, Val 0) /\ exec get_size s' = Some (s', Val 1).
Proof.
  destruct (oversized_insert ex_C [123; 125]%N big_vec 0 eq_refl eq_refl eq_refl big_vec_fact) as (b & Hx).
  eexists ex_C, empty_st, 0, (Object 0 ∅ (Some big_vec)), _, _. split; [constructor|]. split; [done|]. split; [apply ex_json_exact|].
  split; [exact Hx|]. split; [done|].
  unfold get_size. rewrite exec_act. cbn [closed set_objs set_cnt empty_st]. unfold store_size. cbn [objs set_objs]. by rewrite map_size_singleton.
Qed.
Print Assumptions C09_rejected_insert_refuted.

(** When the disk refuses the index log, the object stays in the stores and in
    the index although Insert reports an error. *)
Theorem C09_failed_flush_refuted : exists C s level o s' e,
  hist C empty_st [] s /\ exec (CollModel.insert C 0 false level o) s = Some (s', Err e) /\
  exec (CollModel.get C [0%N]) s = Some (s, Val []) /\
  (exists os, exec (CollModel.get C [0%N]) s' = Some (s', Val os) /\ length os = 1) /\
  (exists s'' hs, exec (semantic_search C 0 o 1) s' = Some (s'', Val (1, hs))).
Proof.
  pose (o := Object 0 ∅ (Some [0%N])).
  assert (H : match exec (CollModel.insert ex_C 0 false 0 o) empty_st with
    | Some (s', Err e) =>
        match get_objects ex_json s' [0%N], exec (semantic_search ex_C 0 o 1) s' with
        | Val os, Some (_, Val (n, _)) => negb (closed s') && bool_decide (length os = 1) && bool_decide (n = 1)
        | _, _ => false
        end
    | _ => false
    end = true) by (vm_compute; reflexivity).
  destruct (exec (CollModel.insert ex_C 0 false 0 o) empty_st) as [[s' [a|e|z]]|] eqn:Ei; try done.
  destruct (get_objects ex_json s' [0%N]) as [os| |] eqn:Eg; [|done..].
  destruct (exec (semantic_search ex_C 0 o 1) s') as [[s'' [[n hs]| |]]|] eqn:Es; try done.
  repeat (apply andb_true_iff in H as [H ?]).
  assert (Hc : closed s' = false) by (by destruct (closed s')).
  repeat match goal with E : bool_decide _ = true |- _ => apply bool_decide_eq_true_1 in E end. subst n.
  exists ex_C, empty_st, 0, o, s', e. split; [constructor|]. split; [done|]. split; [done|]. split; [|by exists s'', hs].
  exists os. unfold CollModel.get. rewrite exec_act, Hc. change (cp_json ex_C) with ex_json. by rewrite Eg.
Qed.
Print Assumptions C09_failed_flush_refuted.

Lemma exec_bind_err {S A B} (p : prog S A) (k : A -> prog S B) s s' e :
  exec (p ≫= k) s = Some (s', Err e) ->
  exec p s = Some (s', Err e) \/ exists s1 a, exec p s = Some (s1, Val a) /\ exec (k a) s1 = Some (s', Err e).
Proof. rewrite exec_bind. destruct (exec p s) as [[s1 [a|x|z]]|]; intros Hx; try done; [right; eauto|left; congruence]. Qed.

Lemma insert_error C s level o s' e :
  numbered s -> (N.of_nat (length (log_view s')) + 1 < 2 ^ 64)%N ->
  (forall os, embed_objects C [o] = Val os -> Forall (fits C) os) ->
  exec (CollModel.insert C 0 true level o) s = Some (s', Err e) -> same_view s s'.
Proof.
  intros Hn Hl Hf Hx. unfold CollModel.insert in Hx.
  apply exec_bind_err in Hx as [Hx|(s1 & u & H1 & Hx)].
  { unfold check_open in Hx. rewrite exec_act in Hx. by apply Some_pair_inj in Hx as [<- _]. }
  unfold check_open in H1. rewrite exec_act in H1. apply Some_pair_inj in H1 as [<- _].
  apply exec_bind_err in Hx as [Hx|(s1 & u' & H1 & Hx)].
  { rewrite exec_lift in Hx. by apply Some_pair_inj in Hx as [<- _]. }
  rewrite exec_lift in H1. apply Some_pair_inj in H1 as [<- _].
  apply exec_bind_err in Hx as [Hx|(s1 & os & H1 & Hx)].
  { rewrite exec_lift in Hx. by apply Some_pair_inj in Hx as [<- _]. }
  rewrite exec_lift in H1. apply Some_pair_inj in H1 as [<- He].
  destruct os as [|o' [|? ?]]; [done| |done]. pose proof (Hf _ He) as Hfit. apply Forall_cons in Hfit as [Hfit _].
  apply exec_bind_err in Hx as [Hx|(s1 & o'' & H1 & Hx)].
  - unfold insert_one in Hx. apply exec_bind_err in Hx as [Hx|(s1 & id & H1 & Hx)].
    { unfold fetch_and_inc in Hx. rewrite exec_act in Hx. destruct (closed s) eqn:Ec; [|done]. apply Some_pair_inj in Hx as [<- _]. split_and!; done. }
    assert (V1 : same_view s s1).
    { unfold fetch_and_inc in H1. rewrite exec_act in H1. destruct (closed s) eqn:Ec; [done|]. apply Some_pair_inj in H1 as [<- _]. split_and!; done. }
    apply exec_bind_err in Hx as [Hx|(s2 & u2 & H2 & Hx)].
    + unfold put_object in Hx. cbn [o_props o_id] in Hx. apply exec_bind_err in Hx as [Hx|(s2 & ob & H2 & Hx)].
      { rewrite exec_lift in Hx. by apply Some_pair_inj in Hx as [<- _]. }
      rewrite exec_lift in H2. apply Some_pair_inj in H2 as [<- Eo].
      apply exec_bind_err in Hx as [Hx|(s2 & vb & H2 & Hx)].
      { rewrite exec_lift in Hx. by apply Some_pair_inj in Hx as [<- _]. }
      rewrite exec_lift in H2. apply Some_pair_inj in H2 as [<- Ev].
      apply exec_bind_err in Hx as [Hx|(s2 & u2 & H2 & Hx)].
      * rewrite exec_act in Hx. unfold bc_put in Hx. destruct (_ <? _)%N; [by apply Some_pair_inj in Hx as [<- _]|].
        destruct (closed s1); [|done]. by apply Some_pair_inj in Hx as [<- _].
      * exfalso. rewrite exec_act in Hx. unfold bc_put in Hx. cbn [o_vec] in Ev.
        replace (vec_or_nil (Object id (o_props o') (o_vec o'))) with (vec_or_nil o') in Ev by done.
        rewrite ser_vec_eq in Ev. apply Val_inj in Ev. rewrite <- Ev in Hx.
        rewrite app_length, le_put_length, le_floats_length in Hx. unfold fits in Hfit.
        rewrite (proj2 (N.ltb_ge _ _)) in Hx by done.
        rewrite exec_act in H2. unfold bc_put in H2. destruct (_ <? _)%N; [done|]. destruct (closed s1) eqn:Ec1; [done|].
        apply Some_pair_inj in H2 as [<- _]. cbn [closed set_objs] in Hx. by rewrite Ec1 in Hx.
    + exfalso. apply exec_bind_err in Hx as [Hx|(s3 & u3 & H3 & Hx)]; [|done].
      apply (no_err_exec _ _ _ _ (ne_insert _ _ _ _ _ _)) in Hx. by apply (Hx e).
  - exfalso. apply exec_bind_err in Hx as [Hx|(s2 & u2 & H2 & Hx)]; [|done]. unfold flush in Hx. rewrite exec_act in Hx.
    assert (Hn1 : numbered s1).
    { pose proof (steps_exec wal_rel wal_rel_refl wal_rel_trans _ _ _ _ (wr_insert_one C 0 level o') H1) as (H & _). auto. }
    assert (Hl1 : (N.of_nat (length (log_view s1)) + 1 < 2 ^ 64)%N).
    { injection Hx as Hx. pose proof (wal_rel_flush true s1) as (_ & [l E] & _). rewrite Hx in E. cbn [fst] in E. rewrite E, app_length in Hl. lia. }
    unfold wal_flush in Hx. rewrite (numbered_in_order _ Hn1 Hl1) in Hx. by destruct (batch s1).
Qed.

(** Missing for the full claim: vectors beyond the store's limit and a disk
    that refuses the log (the two cases above).  The bound on the log is the
    range of its 64-bit sequence numbers. *)
Theorem C09_rejected_insert_partial : forall C h s level o s' e,
  hist C empty_st h s -> (N.of_nat (length (log_view s')) + 1 < 2 ^ 64)%N ->
  (forall os, embed_objects C [o] = Val os -> Forall (fits C) os) ->
  exec (CollModel.insert C 0 true level o) s = Some (s', Err e) ->
  snd <$> exec get_size s' = snd <$> exec get_size s /\
  (forall ids, snd <$> exec (CollModel.get C ids) s' = snd <$> exec (CollModel.get C ids) s) /\
  (forall q k, snd <$> exec (semantic_search C 0 q k) s' = snd <$> exec (semantic_search C 0 q k) s).
Proof.
  intros C h s level o s' e Hh Hl Hf Hx.
  assert (Hn : numbered s) by (by apply (hist_numbered C h empty_st)).
  pose proof (insert_error C s level o s' e Hn Hl Hf Hx) as Hv. apply same_view_sym in Hv. split_and!.
  - destruct Hv as (_ & _ & _ & _ & E1 & _ & E2). unfold get_size. rewrite !exec_act. unfold store_size. by rewrite E1, E2.
  - intros ids. by apply get_view.
  - intros q k. by apply search_view.
Qed.
Print Assumptions C09_rejected_insert_partial.

(** Rejected for its properties after the id has been taken: JSON encoding fails. *)
Example C09_case : exists h s s', hist ex_C_a empty_st h s /\ (N.of_nat (length (log_view s')) + 1 < 2 ^ 64)%N /\
  (forall os, embed_objects ex_C_a [ob_a 11 [0]%N] = Val os -> Forall (fits ex_C_a) os) /\
  exec (CollModel.insert ex_C_a 0 true 0 (ob_a 11 [0]%N)) s = Some (s', Err EJSON) /\ cnt s' = 2%N /\ cnt s = 1%N.
Proof.
  destruct (script_witness ex_C_a [ SCall (CInsert true 0 (ob_a 1 [0]%N)) ]
    (fun h s => match exec (CollModel.insert ex_C_a 0 true 0 (ob_a 11 [0]%N)) s with
      | Some (s', Err EJSON) => (N.of_nat (length (log_view s')) + 1 <? 2 ^ 64)%N && bool_decide (cnt s' = 2%N) && bool_decide (cnt s = 1%N)
      | _ => false
      end)) as (h & s & Hh & H).
  { vm_compute. reflexivity. }
  destruct (exec (CollModel.insert ex_C_a 0 true 0 (ob_a 11 [0]%N)) s) as [[s' [a|e|z]]|] eqn:Ei; try done.
  destruct e; try done. repeat (apply andb_true_iff in H as [H ?]). apply N.ltb_lt in H. exists h, s, s'.
  repeat match goal with E : bool_decide _ = true |- _ => apply bool_decide_eq_true_1 in E end.
  split; [done|]. split; [done|]. split; [|done]. intros os. cbn. intros <-%Val_inj. by repeat constructor.
Qed.

(** ** C13 The index log never rejects its own batch *)
(** At every moment of every history (between calls, or between two steps of
    any goroutine of a call) a flush that reaches the disk succeeds and puts
    exactly the buffered records, in order, behind those already there. *)
Theorem C13_flush_never_refused : forall C h s c s1,
  hist C empty_st h s -> call_cut C s c s1 -> (N.of_nat (length (log_view s1)) + 1 < 2 ^ 64)%N ->
  wal_flush true s1 = (fst (wal_flush true s1), Val tt) /\
  wlog (fst (wal_flush true s1)) = wlog s1 ++ (snd <$> batch s1) /\ batch (fst (wal_flush true s1)) = [] /\
  (forall e, snd (wal_flush false s1) = Err e -> e = EIO) /\ fst (wal_flush false s1) = s1.
Proof.
  intros C h s c s1 Hh Hc Hl.
  assert (Hn : numbered s1).
  { destruct (wr_cut C s c s1 Hc) as (H & _). apply H. by apply (hist_numbered C h empty_st). }
  unfold wal_flush. destruct (batch s1) as [|r b] eqn:Eb.
  - cbn. rewrite app_nil_r, Eb. done.
  - rewrite <- Eb, (numbered_in_order _ Hn Hl). cbn. split_and!; try done. by intros e [= <-].
Qed.
Print Assumptions C13_flush_never_refused.

(** The records written since the collection was opened are the ones on disk
    followed by the buffered ones; a call only adds records at the end, and
    what is on disk only grows, by records taken from the front of the buffer. *)
Theorem C13_records_kept : forall C h s c r s',
  hist C empty_st h s -> call_run C s c s' r ->
  log_view s `prefix_of` log_view s' /\ wlog s `prefix_of` wlog s'.
Proof.
  intros C h s c r s' Hh Hr. destruct (wr_run C s c s' r Hr) as (_ & [l ->] & [m ->]). split; by eexists.
Qed.
Print Assumptions C13_records_kept.

(** Reopening after a crash loses nothing that was on disk, invents nothing
    and starts with the number that follows. *)
Theorem C13_records_survive_crash : forall C h s c n s1 s',
  hist C empty_st h s -> call_cut C s c s1 -> reopen (disk_of (wal_flush_torn n s1)) = Val s' ->
  wlog s `prefix_of` wlog s' /\ wlog s' `prefix_of` log_view s1 /\ batch s' = [] /\
  wseq s' = u64 (N.of_nat (length (wlog s')) + 1).
Proof.
  intros C h s c n s1 s' Hh Hc Hr. destruct (wr_cut C s c s1 Hc) as (_ & _ & [l El]).
  destruct (reopen_store _ _ Hr) as (R1&R2&R3&R4&R5&R6&R7&R8&R9). cbn [disk_of d_log wal_flush_torn set_wal wlog] in *.
  rewrite R8, R9. split_and!; try done.
  - rewrite El. rewrite <- app_assoc. by eexists.
  - unfold log_view. apply prefix_app. exists (drop n (snd <$> batch s1)). by rewrite take_drop.
Qed.
Print Assumptions C13_records_survive_crash.

Definition reply_err (r : reply) : option err_t :=
  match r with
  | RIns (Err e) | RUnit (Err e) | RGet (Err e) | RSearch (Err e) | RSize (Err e) => Some e
  | RBatch (Err e) _ => Some e
  | _ => None
  end.
Definition not_order (e : err_t) : Prop := e <> EOutOfOrder.
Lemma validate_err C i os e : validate_objects C i os = Err e -> not_order e.
Proof.
  revert i. induction os as [|o os IH]; intros i; cbn [validate_objects]; [done|].
  destruct (_ <? _); [by intros [= <-]|].
  assert (H : forall ms e', check_mappings i (o_props o) ms = Err e' -> not_order e').
  { induction ms as [|m ms IHm]; intros e'; cbn [check_mappings]; [done|]. destruct (o_props o !! m); [apply IHm|]. by intros [= <-]. }
  destruct (check_mappings i (o_props o) (cp_mappings C)) as [u|e'|z] eqn:E; cbn [mbind out_bind]; [apply IH| |done].
  intros [= <-]. by eapply H.
Qed.
Lemma assign_no_err os er e : assign_vecs os er <> Err e.
Proof.
  revert er. induction os as [|o os IH]; intros er; cbn [assign_vecs]; [done|]. destruct (needs_vec o).
  - destruct er as [|v er]; [done|]. specialize (IH er). destruct (assign_vecs os er); cbn; congruence.
  - specialize (IH er). destruct (assign_vecs os er); cbn; congruence.
Qed.
Lemma embed_err C os e : embed_objects C os = Err e -> not_order e.
Proof.
  unfold embed_objects. destruct (cp_embed C) as [E|].
  - destruct (E _); [|by intros [= <-]]. intros H. by apply assign_no_err in H.
  - destruct (existsb _ _); [by intros [= <-]|done].
Qed.
Lemma flush_err io s s' r e :
  numbered s -> (N.of_nat (length (log_view s')) + 1 < 2 ^ 64)%N -> wal_flush io s = (s', r) -> r = Err e -> not_order e.
Proof.
  intros Hn Hl Hf ->. assert (Hl1 : (N.of_nat (length (log_view s)) + 1 < 2 ^ 64)%N).
  { pose proof (wal_rel_flush io s) as (_ & [l E] & _). rewrite Hf in E. cbn [fst] in E. rewrite E, app_length in Hl. lia. }
  unfold wal_flush in Hf. rewrite (numbered_in_order _ Hn Hl1) in Hf. destruct (batch s), io; by simplify_eq.
Qed.
Lemma ins_err_order e : ins_err e -> not_order e.
Proof. by intros [-> | [-> | ->]]. Qed.
Lemma get_u32_no_err b off e : get_u32 b off <> Err e.
Proof. unfold get_u32. destruct (decide _); [|done]. by destruct (le_get _ _). Qed.
Lemma get_object_err C s id e : get_object (cp_json C) s id = Err e -> not_order e.
Proof.
  unfold get_object. destruct (objs s !! _) as [b|]; [|done]. destruct (closed s); [by intros [= <-]|].
  destruct (vecs s !! _) as [vb|]; [|done]. 
  assert (H1 : forall e', de_props (cp_json C) b = Err e' -> not_order e').
  { intros e'. unfold de_props, slice. pose proof (get_u32_no_err b 0) as Hu. destruct (get_u32 b 0) as [n|x|z]; [|by destruct (Hu x)|done]. cbn [mbind out_bind].
    destruct (decide _); [|done]. cbn [mbind out_bind]. destruct (j_dec (cp_json C) _); [done|]. by intros [= <-]. }
  assert (H2 : forall e', de_vec vb = Err e' -> not_order e').
  { intros e'. unfold de_vec. pose proof (get_u32_no_err vb 0) as Hu. destruct (get_u32 vb 0) as [n|x|z]; [|by destruct (Hu x)|done]. cbn [mbind out_bind].
    assert (H : forall k off, get_floats vb off k <> Err e').
    { induction k as [|k IH]; intros off; cbn [get_floats]; [done|]. pose proof (get_u32_no_err vb off) as Hu'. destruct (get_u32 vb off) as [n'|x|z]; [|by destruct (Hu' x)|done]. cbn [mbind out_bind].
      specialize (IH (off + 4)). destruct (get_floats vb (off + 4) k); cbn; congruence. }
    intros E. by destruct (H _ _ E). }
  destruct (de_props (cp_json C) b) as [p|e'|z]; cbn; [|intros [= <-]; by apply H1|done].
  destruct (de_vec vb) as [v|e'|z]; cbn; [done|intros [= <-]; by apply H2|done].
Qed.
Lemma get_objects_err C s ids e : get_objects (cp_json C) s ids = Err e -> not_order e.
Proof.
  induction ids as [|id ids IH]; cbn [get_objects]; [done|]. destruct (get_object _ _ _) as [x|e'|z] eqn:E; cbn.
  - destruct (get_objects _ _ _) as [l|e'|z]; cbn; [done|intros [= <-]; by apply IH|done].
  - intros [= <-]. by eapply get_object_err.
  - done.
Qed.

(** No call is ever answered with the log's "out of order" error. *)
Theorem C13_never_out_of_order : forall C h s c r s' e,
  hist C empty_st h s -> call_run C s c s' r -> (N.of_nat (length (log_view s')) + 1 < 2 ^ 64)%N ->
  reply_err r = Some e -> e <> EOutOfOrder.
Proof.
  intros C h s c r s' e Hh Hr Hl He.
  assert (Hn : numbered s) by (by apply (hist_numbered C h empty_st)).
  assert (Hflush : forall s1 s2 io e1, numbered s1 -> (N.of_nat (length (log_view s2)) + 1 < 2 ^ 64)%N -> exec (flush io) s1 = Some (s2, Err e1) -> not_order e1).
  { intros s1 s2 io e1 Hn1 Hl1. unfold flush. rewrite exec_act. intros [= Hf]. by eapply flush_err. }
  assert (Hprep : forall os e1, batch_prepare C s os = Err e1 -> not_order e1).
  { intros os e1. unfold batch_prepare. destruct (closed s); [by intros [= <-]|].
    destruct (validate_objects C 0 os) as [u|e'|z] eqn:Ev; cbn; [apply embed_err|intros [= <-]; by eapply validate_err|done]. }
  assert (Hbatch : forall io ts s0 s1 r0 rs, Forall (errs ins_err) ts -> numbered s0 ->
    (forall s2 ts2, rtc mstep (s0, ts) (s2, ts2) -> wal_rel s0 s2) -> (N.of_nat (length (log_view s1)) + 1 < 2 ^ 64)%N ->
    batch_run io ts s0 s1 r0 rs -> r0 = Err e -> not_order e).
  { intros io ts s0 s1 r0 rs Hts Hn0 Hw Hl1 Hb ->. inversion Hb as [s2 rs2 s3 r3 H1 Hg Hf|s2 rs2 e2 H1 Hg]; subst.
    - eapply flush_err; [|exact Hl1|exact Hf|done]. by apply (Hw _ _ H1).
    - cbn in Hg. pose proof (errs_rtc ins_err _ _ H1 Hts) as Hall. cbn [snd] in Hall.
      apply ins_err_order. rewrite Forall_fmap, Forall_forall in Hall. by apply (Hall _ Hg). }
  inversion Hr as [io level o s1 r1 Hx|io ol r1 Hp Hnv|io ol os s1 r1 rs Hp Hb|io ol r1 Hp Hnv|io ol os s1 r1 rs Hp Hb|io id f s1 r1 Hlk Hx|ids s1 r1 Hx|o k s1 r1 Hx|s1 r1 Hx|o s1 r1 Hx|s1 r1 Hx]; subst; cbn in He.
  - destruct r1 as [a|e1|z]; try done. injection He as ->. unfold CollModel.insert in Hx.
    apply exec_bind_err in Hx as [Hx|(s1 & u & H1 & Hx)].
    { unfold check_open in Hx. rewrite exec_act in Hx. apply Some_pair_inj in Hx as [_ Hx]. destruct (closed s); by simplify_eq. }
    unfold check_open in H1. rewrite exec_act in H1. apply Some_pair_inj in H1 as [<- _].
    apply exec_bind_err in Hx as [Hx|(s1 & u' & H1 & Hx)].
    { rewrite exec_lift in Hx. apply Some_pair_inj in Hx as [_ Hx]. by eapply validate_err. }
    rewrite exec_lift in H1. apply Some_pair_inj in H1 as [<- _].
    apply exec_bind_err in Hx as [Hx|(s1 & os & H1 & Hx)].
    { rewrite exec_lift in Hx. apply Some_pair_inj in Hx as [_ Hx]. by eapply embed_err. }
    rewrite exec_lift in H1. apply Some_pair_inj in H1 as [<- _].
    destruct os as [|o' [|? ?]]; [done| |done]. apply exec_bind_err in Hx as [Hx|(s1 & o'' & H1 & Hx)].
    { apply ins_err_order. by apply (errs_exec ins_err _ _ _ _ (errs_insert_one C 0 level o') Hx). }
    apply exec_bind_err in Hx as [Hx|(s2 & u2 & H2 & Hx)]; [|done].
    eapply Hflush; [|exact Hl|exact Hx]. by apply (steps_exec wal_rel wal_rel_refl wal_rel_trans _ _ _ _ (wr_insert_one C 0 level o') H1).
  - destruct (batch_prepare C s' ol.*1) as [os|e1|z] eqn:E; cbn in He; [by destruct (Hnv os)| |done]. injection He as ->. by eapply Hprep.
  - destruct r1 as [a|e1|z]; try done. injection He as ->. eapply Hbatch; [|exact Hn| |exact Hl|exact Hb|done].
    + unfold batch_threads. apply Forall_fmap, Forall_true. intros i. apply errs_worker.
    + intros s2 ts2. apply wr_threads.
  - destruct (batch_prepare C s' ol.*1) as [os|e1|z] eqn:E; cbn in He; [by destruct (Hnv os)| |done]. injection He as ->. by eapply Hprep.
  - destruct r1 as [a|e1|z]; try done. injection He as ->. eapply Hbatch; [| | | |exact Hb|done].
    + unfold batch2_threads. apply Forall_fmap, Forall_true. intros i. apply errs_worker2.
    + done.
    + intros s2 ts2. apply wr_threads2.
    + exact Hl.
  - destruct r1 as [a|e1|z]; try done. injection He as ->. unfold delete_found in Hx.
    apply exec_bind_err in Hx as [Hx|(s1 & x & H1 & Hx)].
    { rewrite exec_act in Hx. apply Some_pair_inj in Hx as [_ Hx]. cbn in Hx. subst f.
      inversion Hlk; subst; [by eapply get_object_err|done]. }
    rewrite exec_act in H1. apply Some_pair_inj in H1 as [<- _]. destruct x as [x|]; [|done].
    apply exec_bind_err in Hx as [Hx|(s1 & u & H1 & Hx)].
    { unfold delete_object in Hx. rewrite exec_act in Hx. destruct (closed s); [|done]. by apply Some_pair_inj in Hx as [_ [= <-]]. }
    assert (W1 : numbered s1).
    { unfold delete_object in H1. rewrite exec_act in H1. destruct (closed s); [done|]. by apply Some_pair_inj in H1 as [<- _]. }
    apply exec_bind_err in Hx as [Hx|(s2 & u' & H2 & Hx)].
    { unfold hnsw_delete in Hx. destruct (enc_delete id) as [rb|e1|z] eqn:Ed; [|by destruct (ok_enc (WDelete id) e1)|done].
      rewrite exec_act in Hx. done. }
    eapply Hflush; [|exact Hl|exact Hx]. unfold hnsw_delete in H2. destruct (enc_delete id) as [rb|e1|z]; [|done..].
    rewrite exec_act in H2. apply Some_pair_inj in H2 as [<- _].
    apply (wal_rel_same (wal_append rb s1)); [done..|]. by apply (wal_rel_append rb s1).
  - destruct r1 as [a|e1|z]; try done. injection He as ->. unfold CollModel.get in Hx. rewrite exec_act in Hx. apply Some_pair_inj in Hx as [_ Hx].
    destruct (closed s); [by simplify_eq|]. by eapply get_objects_err.
  - destruct r1 as [a|e1|z]; try done. injection He as ->. unfold semantic_search in Hx.
    apply exec_bind_err in Hx as [Hx|(s1 & u & H1 & Hx)].
    { unfold check_open in Hx. rewrite exec_act in Hx. apply Some_pair_inj in Hx as [_ Hx]. destruct (closed s); by simplify_eq. }
    apply exec_bind_err in Hx as [Hx|(s2 & os & H2 & Hx)].
    { rewrite exec_lift in Hx. apply Some_pair_inj in Hx as [_ Hx]. by eapply embed_err. }
    destruct os as [|o' [|? ?]]; [done| |done]. apply exec_bind_err in Hx as [Hx|(s3 & es & H3 & Hx)].
    { apply (no_err_exec _ _ _ _ (ne_search _ _ _ _ _)) in Hx. by destruct (Hx e). }
    apply exec_bind_err in Hx as [Hx|(s4 & obs & H4 & Hx)].
    { rewrite exec_act in Hx. apply Some_pair_inj in Hx as [_ Hx]. by eapply get_objects_err. }
    apply exec_bind_err in Hx as [Hx|(s5 & hs & H5 & Hx)]; [|done].
    rewrite exec_lift in Hx. apply Some_pair_inj in Hx as [_ Hx]. exfalso. clear -Hx. revert obs Hx.
    induction es as [|x es IH]; intros obs Hx; destruct obs as [|ob obs]; cbn [pair_results] in Hx; try done.
    specialize (IH obs). destruct (pair_results obs es); cbn in Hx; done.
  - destruct r1 as [a|e1|z]; try done. injection He as ->. unfold get_size in Hx. rewrite exec_act in Hx. apply Some_pair_inj in Hx as [_ Hx].
    destruct (closed s); by simplify_eq.
  - destruct r1 as [a|e1|z]; try done. injection He as ->. unfold CollModel.update, check_open in Hx. rewrite exec_act in Hx. apply Some_pair_inj in Hx as [_ Hx].
    destruct (closed s); by simplify_eq.
  - destruct r1 as [a|e1|z]; try done. injection He as ->. unfold CollModel.close in Hx. rewrite exec_act in Hx.
    destruct (closed s); apply Some_pair_inj in Hx as [_ Hx]; by simplify_eq.
Qed.
Print Assumptions C13_never_out_of_order.

(** A failed flush leaves records in the buffer, the next call flushes both. *)
Example C13_case : exists h s c r s', hist ex_C empty_st h s /\ length (batch s) = 2 /\ wlog s = [] /\ call_run ex_C s c s' r /\
  (N.of_nat (length (log_view s')) + 1 < 2 ^ 64)%N /\ 4 <= length (wlog s') /\ batch s' = [].
Proof.
  destruct (script_witness ex_C [ SCall (CInsert false 0 (Object 0 ∅ (Some [0]%N))) ]
    (fun h s => match call_exec ex_C (CInsert true 0 (Object 0 ∅ (Some [1065353216]%N))) [] 0 s with
      | Some (s', r) => bool_decide (length (batch s) = 2) && bool_decide (wlog s = []) && (N.of_nat (length (log_view s')) + 1 <? 2 ^ 64)%N &&
          (4 <=? length (wlog s')) && bool_decide (batch s' = [])
      | None => false
      end)) as (h & s & Hh & H).
  { vm_compute. reflexivity. }
  destruct (call_exec ex_C (CInsert true 0 (Object 0 ∅ (Some [1065353216]%N))) [] 0 s) as [[s' r]|] eqn:E; [|done].
  repeat (apply andb_true_iff in H as [H ?]). repeat match goal with E : bool_decide _ = true |- _ => apply bool_decide_eq_true_1 in E end.
  eexists h, s, _, r, s'. split; [done|]. split; [done|]. split; [done|]. split; [by eapply call_exec_run|].
  split; [by apply N.ltb_lt|]. split; [by apply Nat.leb_le|done].
Qed.
