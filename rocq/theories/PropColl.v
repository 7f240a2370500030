(** Properties of the calls of a collection: C20, C35, C36, C37, C38, C39,
    C50, C52. *)
From stdpp Require Import relations sorting.
From Verif Require Import GoBase FloatModel HeapModel ProgModel StateModel WalModel HnswModel StoreModel CollModel CallModel
  ProofBase CodecProofs CodecSpec LogProofs WpProofs StepProofs SimProofs StoreProofs CallProofs HistProofs WalProofs HistRun StoreView PropStore.
Open Scope nat_scope.
Local Arguments id_key _ : simpl never.
Local Arguments le_put _ _ : simpl never.

(** ** C36 Batch validation is all or nothing *)
(** The object has exactly the mapped names (for mappings without repetition). *)
Definition fits_mappings (C : cparams) (o : object) : Prop :=
  (forall m, m ∈ cp_mappings C -> is_Some (o_props o !! m)) /\ size (o_props o) <= length (cp_mappings C).
Lemma check_mappings_spec i p ms :
  (check_mappings i p ms = Val tt /\ forall m, m ∈ ms -> is_Some (p !! m)) \/
  (exists m, m ∈ ms /\ p !! m = None /\ check_mappings i p ms = Err (EMappingMissing i m)).
Proof.
  induction ms as [|m ms IH]; cbn [check_mappings].
  - left. split; [done|]. intros m Hm. by apply elem_of_nil in Hm.
  - destruct (p !! m) as [x|] eqn:E.
    + destruct IH as [[H1 H2]|(m' & H1 & H2 & H3)].
      * left. split; [done|]. intros m' [->|Hm]%elem_of_cons; [by eexists|by apply H2].
      * right. exists m'. split_and!; [by right|done|done].
    + right. exists m. split_and!; [by left|done|done].
Qed.
Lemma validate_spec C i os :
  (validate_objects C i os = Val tt /\ Forall (fits_mappings C) os) \/
  (exists e, validate_objects C i os = Err e /\ Exists (fun o => ~ fits_mappings C o) os).
Proof.
  revert i. induction os as [|o os IH]; intros i; cbn [validate_objects]; [left; by split|].
  destruct (Nat.ltb_spec (length (cp_mappings C)) (size (o_props o))) as [Hl|Hl].
  { right. eexists. split; [done|]. left. intros [_ H]. lia. }
  destruct (check_mappings_spec i (o_props o) (cp_mappings C)) as [[-> H2]|(m & H1 & H2 & ->)]; cbn [mbind out_bind].
  - destruct (IH (S i)) as [[-> H3]|(e & -> & H3)].
    + left. split; [done|]. constructor; [by split|done].
    + right. exists e. split; [done|]. by right.
  - right. eexists. split; [done|]. left. intros [H _]. destruct (H m H1) as [x Hx]. congruence.
Qed.

(** An object no insert may accept. *)
Definition unacceptable (C : cparams) (o : object) : Prop :=
  ~ fits_mappings C o \/ (cp_embed C = None /\ o_vec o = None).
Lemma prepare_refuses C s os :
  closed s = false -> Exists (unacceptable C) os ->
  exists e, (validate_objects C 0 os;; embed_objects C os) = Err e.
Proof.
  intros Hc Hb. destruct (validate_spec C 0 os) as [[-> Hf]|(e & -> & _)]; [|by eexists]. cbn [mbind out_bind].
  apply Exists_exists in Hb as (o & Ho & [Hn|[He Hv]]).
  - rewrite Forall_forall in Hf. by destruct Hn; apply Hf.
  - unfold embed_objects. rewrite He.
    replace (existsb needs_vec os) with true; [by eexists|]. symmetry. apply existsb_exists. exists o.
    split; [by apply elem_of_list_In|]. unfold needs_vec. by rewrite Hv.
Qed.

Theorem C36_batch_all_or_nothing : forall C s io ol s' r,
  Exists (unacceptable C) (ol.*1) ->
  call_run C s (CBatch io ol) s' r \/ call_run C s (CBatch2 io ol) s' r ->
  s' = s /\ exists e, r = RBatch (Err e) [].
Proof.
  intros C s io ol s' r Hb Hr.
  assert (Hp : exists e, batch_prepare C s ol.*1 = Err e).
  { unfold batch_prepare. destruct (closed s) eqn:Ec; [by eexists|]. by apply (prepare_refuses C s). }
  destruct Hp as (e & Hp).
  destruct Hr as [Hr|Hr]; inversion Hr; subst; rewrite ?Hp; try congruence; (split; [done|]); by exists e.
Qed.
Print Assumptions C36_batch_all_or_nothing.

(** The same for Insert. *)
Theorem C36_insert_all_or_nothing : forall C s io level o s' r,
  unacceptable C o -> exec (CollModel.insert C 0 io level o) s = Some (s', r) -> s' = s /\ exists e, r = Err e.
Proof.
  intros C s io level o s' r Hb Hx. unfold CollModel.insert in Hx. rewrite exec_bind in Hx. unfold check_open in Hx. rewrite exec_act in Hx.
  destruct (closed s) eqn:Ec. { apply Some_pair_inj in Hx as [<- <-]. eauto. }
  destruct (prepare_refuses C s [o] Ec) as (e & He); [by left|].
  rewrite exec_bind, exec_lift in Hx. destruct (validate_objects C 0 [o]) as [u|e1|z]; cbn [mbind out_bind] in He; [| |done].
  - rewrite exec_bind, exec_lift, He in Hx. apply Some_pair_inj in Hx as [<- <-]. eauto.
  - apply Some_pair_inj in Hx as [<- <-]. eauto.
Qed.
Print Assumptions C36_insert_all_or_nothing.

(** The third of four objects lacks the property "a". *)
Example C36_case : exists s r, Exists (unacceptable ex_C_a) ([(ob_a 1 [0]%N, 0); (ob_a 2 [0]%N, 0); (Object 0 ∅ (Some [0]%N), 0); (ob_a 3 [0]%N, 0)].*1) /\
  call_run ex_C_a s (CBatch true [(ob_a 1 [0]%N, 0); (ob_a 2 [0]%N, 0); (Object 0 ∅ (Some [0]%N), 0); (ob_a 3 [0]%N, 0)]) s r.
Proof.
  exists empty_st, (RBatch (Err (EMappingMissing 2 "a")) []). split.
  - right. right. left. left. intros [H _]. destruct (H "a"%string) as [x Hx]; [cbn; by left|]. done.
  - by apply (RunBatchRefused ex_C_a empty_st true _ (Err (EMappingMissing 2 "a"))).
Qed.

(** ** C37 Mappings are enforced exactly *)
(** Missing for the full claim: mappings with a repeated name. *)
Theorem C37_mappings_exact_partial : forall C o i,
  NoDup (cp_mappings C) ->
  (validate_objects C i [o] = Val tt <-> forall m, m ∈ cp_mappings C <-> is_Some (o_props o !! m)).
Proof.
  intros C o i Hnd.
  assert (Hfit : fits_mappings C o <-> forall m, m ∈ cp_mappings C <-> is_Some (o_props o !! m)).
  { pose proof (size_dom (M := gmap string) (D := gset string) (o_props o : gmap string jval)) as Hsz. split.
    - intros [H1 H2] m. split; [apply H1|]. intros Hm. cut (m ∈ (list_to_set (cp_mappings C) : gset string)); [by rewrite elem_of_list_to_set|].
      destruct (decide (m ∈ (list_to_set (cp_mappings C) : gset string))) as [|Hno]; [done|exfalso].
      assert (Hss : (list_to_set (cp_mappings C) : gset string) ⊂ dom (o_props o : gmap string jval)).
      { split.
        - intros x Hx. apply elem_of_list_to_set in Hx. apply elem_of_dom. by apply H1.
        - intros Hsub. apply Hno, Hsub. by apply elem_of_dom. }
      apply subset_size in Hss. rewrite Hsz, size_list_to_set in Hss by done. unfold props in *. lia.
    - intros H. split; [intros m; apply H|].
      assert (Heq : (list_to_set (cp_mappings C) : gset string) = dom (o_props o : gmap string jval)).
      { apply set_eq. intros x. rewrite elem_of_list_to_set, elem_of_dom. apply H. }
      pose proof (f_equal size Heq) as Hs. rewrite size_list_to_set in Hs by done. rewrite Hs, Hsz. done. }
  rewrite <- Hfit. destruct (validate_spec C i [o]) as [[-> H]|(e & -> & H)].
  - apply Forall_cons in H as [H _]. done.
  - apply Exists_cons in H as [H|H]; [|by apply Exists_nil in H]. split; [done|]. intros. by destruct H.
Qed.
Print Assumptions C37_mappings_exact_partial.

(** What this means for Insert: an object with other names is refused. *)
Theorem C37_insert_refuses : forall C o s io level s' r,
  NoDup (cp_mappings C) -> ~ (forall m, m ∈ cp_mappings C <-> is_Some (o_props o !! m)) ->
  exec (CollModel.insert C 0 io level o) s = Some (s', r) -> s' = s /\ exists e, r = Err e.
Proof.
  intros C o s io level s' r Hnd Hne Hx. eapply C36_insert_all_or_nothing; [|exact Hx]. left. intros Hf. apply Hne.
  apply (C37_mappings_exact_partial C o 0 Hnd). destruct (validate_spec C 0 [o]) as [[-> H]|(e & -> & H)]; [done|].
  apply Exists_cons in H as [H|H]; [done|by apply Exists_nil in H].
Qed.
Print Assumptions C37_insert_refuses.

(** With a repeated name in the mappings an object with an extra name is
    accepted by Insert. *)
Definition ex_C_dup : cparams :=
  CParams (HParams 4 4 8 8 true Euclidean) ["a"; "a"]%string None (Json (fun _ => Some [123; 125]%N) (fun _ => Some ∅)) 65536 2 50.
Definition ex_ob_ab : object := Object 0 {["a"%string := JNull; "b"%string := JNull]} (Some [0%N]).
Theorem C37_mappings_exact_refuted : exists C o s',
  o_props o !! "b"%string = Some JNull /\ "b"%string ∉ cp_mappings C /\
  exists o', exec (CollModel.insert C 0 true 0 o) empty_st = Some (s', Val o').
Proof.
  assert (H : match exec (CollModel.insert ex_C_dup 0 true 0 ex_ob_ab) empty_st with Some (_, Val _) => true | _ => false end = true) by (vm_compute; reflexivity).
  destruct (exec (CollModel.insert ex_C_dup 0 true 0 ex_ob_ab) empty_st) as [[s' [o'|e|z]]|] eqn:E; try done.
  exists ex_C_dup, ex_ob_ab, s'. split; [done|]. split; [|by exists o']. clear. cbn. 
  intros [?|[?|?%elem_of_nil]%elem_of_cons]%elem_of_cons; done.
Qed.
Print Assumptions C37_mappings_exact_refuted.

Example C37_case : NoDup (cp_mappings ex_C_a) /\ validate_objects ex_C_a 0 [ob_a 1 [0]%N] = Val tt /\
  validate_objects ex_C_a 0 [Object 0 {["a"%string := JNull; "b"%string := JNull]} (Some [0%N])] = Err (EMappingLen 0).
Proof. split; [cbn; apply NoDup_singleton|]. split; reflexivity. Qed.

(** ** C38 Embeddings go to the right objects *)
(** The objects without a vector, in order, and the position of the i-th object among them. *)
Definition without_vec (os : list object) : list object := filter (fun o => o_vec o = None) os.
Definition rank (os : list object) (i : nat) : nat := length (without_vec (take i os)).
Lemma filter_needs os : List.filter needs_vec os = without_vec os.
Proof.
  unfold without_vec. induction os as [|o os IH]; [done|]. cbn [List.filter]. rewrite filter_cons, IH.
  unfold needs_vec. destruct (o_vec o); [by rewrite decide_False|by rewrite decide_True].
Qed.
Lemma assign_spec os er :
  length er = length (without_vec os) ->
  exists os', assign_vecs os er = Val os' /\ length os' = length os /\
    forall i o, os !! i = Some o ->
      os' !! i = Some (match o_vec o with Some _ => o | None => Object (o_id o) (o_props o) (er !! rank os i) end).
Proof.
  revert er. induction os as [|o os IH]; intros er Hl; cbn [assign_vecs].
  - exists []. split_and!; done.
  - unfold without_vec in Hl. rewrite filter_cons in Hl. unfold needs_vec. destruct (o_vec o) as [v|] eqn:Ev.
    + rewrite decide_False in Hl by done. destruct (IH er Hl) as (os' & -> & L & H). cbn. exists (o :: os'). split_and!; [done|cbn; by rewrite L|].
      intros [|i] o1 Hi; [cbn in Hi |- *; simplify_eq; by rewrite Ev|].
      match goal with |- (?a :: _) !! _ = _ => change ((a :: os') !! S i) with (os' !! i) end. rewrite (H i o1 Hi). unfold rank. cbn [take]. unfold without_vec. rewrite filter_cons, decide_False by (by rewrite Ev). done.
    + rewrite decide_True in Hl by done. destruct er as [|v er]; [done|]. cbn in Hl. destruct (IH er) as (os' & -> & L & H); [unfold without_vec; lia|]. cbn.
      eexists. split_and!; [done|cbn; by rewrite L|].
      intros [|i] o1 Hi; [cbn in Hi |- *; simplify_eq; by rewrite Ev|].
      match goal with |- (?a :: _) !! _ = _ => change ((a :: os') !! S i) with (os' !! i) end. rewrite (H i o1 Hi). unfold rank. cbn [take]. unfold without_vec. rewrite filter_cons, decide_True by done. done.
Qed.

Theorem C38_embeddings_to_right_objects : forall C E os er,
  cp_embed C = Some E -> E (without_vec os) = Some er -> length er = length (without_vec os) ->
  exists os', embed_objects C os = Val os' /\ length os' = length os /\
    forall i o, os !! i = Some o -> exists o', os' !! i = Some o' /\ o_id o' = o_id o /\ o_props o' = o_props o /\
      (forall v, o_vec o = Some v -> o_vec o' = Some v) /\
      (o_vec o = None -> o_vec o' = er !! rank os i /\ is_Some (o_vec o')).
Proof.
  intros C E os er HC HE Hl. unfold embed_objects. rewrite HC, filter_needs, HE.
  destruct (assign_spec os er Hl) as (os' & -> & L & H). exists os'. split; [done|]. split; [done|].
  intros i o Hi. specialize (H i o Hi). eexists. split; [exact H|]. destruct (o_vec o) as [v|] eqn:Ev; [by rewrite Ev|].
  cbn. split_and!; try done. intros _. split; [done|]. apply lookup_lt_is_Some. rewrite Hl.
  unfold rank. assert (Ho : without_vec os = without_vec (take i os) ++ without_vec (drop i os)).
  { unfold without_vec. by rewrite <- filter_app, take_drop. }
  rewrite Ho, app_length. apply drop_S in Hi. rewrite Hi. unfold without_vec at 3. rewrite filter_cons, decide_True by done. cbn. lia.
Qed.
Print Assumptions C38_embeddings_to_right_objects.

(** The embedder sees nothing but these objects: two embedders that agree on
    them give the same result. *)
Theorem C38_only_missing_are_sent : forall C1 C2 E1 E2 os,
  cp_embed C1 = Some E1 -> cp_embed C2 = Some E2 -> E1 (without_vec os) = E2 (without_vec os) ->
  embed_objects C1 os = embed_objects C2 os.
Proof. intros C1 C2 E1 E2 os H1 H2 HE. unfold embed_objects. by rewrite H1, H2, filter_needs, HE. Qed.
Print Assumptions C38_only_missing_are_sent.

(** An embedder error stores nothing. *)
Theorem C38_embedder_error_stores_nothing : forall C E s c s' r,
  cp_embed C = Some E -> E (without_vec (submitted c)) = None ->
  match c with CInsert _ _ _ | CBatch _ _ | CBatch2 _ _ => True | _ => False end ->
  call_run C s c s' r ->
  s' = s /\ exists e, r = RIns (Err e) \/ r = RBatch (Err e) [].
Proof.
  intros C E s c s' r HC HE Hcase Hr.
  assert (Hp : forall os, os = submitted c -> embed_objects C os = Err EEmbed).
  { intros os ->. unfold embed_objects. by rewrite HC, filter_needs, HE. }
  assert (Hbp : exists e, batch_prepare C s (submitted c) = Err e).
  { unfold batch_prepare. destruct (closed s); [by eexists|]. destruct (validate_spec C 0 (submitted c)) as [[-> _]|(e & -> & _)]; [|by eexists].
    cbn. rewrite (Hp _ eq_refl). by eexists. }
  destruct Hbp as (e & Hbp).
  destruct c as [io level o|io ol|io ol| | | | | | ]; try done; cbn [submitted] in *.
  - inversion Hr as [io' level' o' s1 r1 Hx| | | | | | | | | | ]; subst. unfold CollModel.insert in Hx. rewrite exec_bind in Hx. unfold check_open in Hx. rewrite exec_act in Hx.
    destruct (closed s) eqn:Ec. { apply Some_pair_inj in Hx as [<- <-]. eauto. }
    rewrite exec_bind, exec_lift in Hx. destruct (validate_spec C 0 [o]) as [[Ev _]|(e1 & Ev & _)]; rewrite Ev in Hx.
    + rewrite exec_bind, exec_lift, (Hp _ eq_refl) in Hx. apply Some_pair_inj in Hx as [<- <-]. eauto.
    + apply Some_pair_inj in Hx as [<- <-]. eauto.
  - inversion Hr; subst; rewrite ?Hbp; try congruence. split; [done|]. exists e. by right.
  - inversion Hr; subst; rewrite ?Hbp; try congruence. split; [done|]. exists e. by right.
Qed.
Print Assumptions C38_embedder_error_stores_nothing.

(** Objects 1 and 3 of four have vectors. *)
Definition ex_embed : embedder := fun os => Some ((fun o => [N.of_nat (length os); o_id o]) <$> os).
Example C38_case : let os := [Object 10 ∅ None; Object 11 ∅ (Some [7]%N); Object 12 ∅ None; Object 13 ∅ (Some [8]%N)] in
  ex_embed (without_vec os) = Some [[2; 10]; [2; 12]]%N /\
  embed_objects (CParams (HParams 4 4 8 8 true Euclidean) [] (Some ex_embed) ex_json 65536 2 50) os =
    Val [Object 10 ∅ (Some [2; 10]%N); Object 11 ∅ (Some [7]%N); Object 12 ∅ (Some [2; 12]%N); Object 13 ∅ (Some [8]%N)].
Proof. split; reflexivity. Qed.

(** ** C39 A closed collection refuses every operation *)
(** Missing for the full claim: Delete, see below. *)
Theorem C39_closed_refuses_partial : forall C s,
  closed s = true ->
  (forall io level o, exec (CollModel.insert C 0 io level o) s = Some (s, Err ECollectionClosed)) /\
  (forall io ol s' r, call_run C s (CBatch io ol) s' r \/ call_run C s (CBatch2 io ol) s' r -> s' = s /\ r = RBatch (Err ECollectionClosed) []) /\
  (forall o, exec (CollModel.update o) s = Some (s, Err ECollectionClosed)) /\
  (forall ids, exec (CollModel.get C ids) s = Some (s, Err ECollectionClosed)) /\
  (forall o k, exec (semantic_search C 0 o k) s = Some (s, Err ECollectionClosed)) /\
  exec get_size s = Some (s, Err ECollectionClosed) /\
  (forall A (cfg : A), exec (get_config cfg) s = Some (s, Err ECollectionClosed)).
Proof.
  intros C s Hc. split_and!.
  - intros. unfold CollModel.insert. rewrite exec_bind. unfold check_open. by rewrite exec_act, Hc.
  - intros io ol s' r Hr. assert (Hp : batch_prepare C s ol.*1 = Err ECollectionClosed) by (unfold batch_prepare; by rewrite Hc).
    destruct Hr as [Hr|Hr]; inversion Hr; subst; rewrite ?Hp; try congruence; done.
  - intros. unfold CollModel.update, check_open. by rewrite exec_act, Hc.
  - intros. unfold CollModel.get. by rewrite exec_act, Hc.
  - intros. unfold semantic_search. rewrite exec_bind. unfold check_open. by rewrite exec_act, Hc.
  - unfold get_size. by rewrite exec_act, Hc.
  - intros. unfold get_config. by rewrite exec_act, Hc.
Qed.
Print Assumptions C39_closed_refuses_partial.

(** Delete changes nothing either, but answers success for an id that is not
    stored and otherwise the error of the closed store. *)
Theorem C39_closed_delete_changes_nothing : forall C s io id,
  closed s = true ->
  exec (delete_obj C io id) s =
    Some (s, match objs s !! le_put 8 id with None => Val tt | Some _ => Err EFileClosed end).
Proof.
  intros C s io id Hc. unfold delete_obj. rewrite exec_bind, exec_act. unfold get_object. fold (id_key id).
  destruct (objs s !! id_key id); [by rewrite Hc|done].
Qed.
Print Assumptions C39_closed_delete_changes_nothing.

Theorem C39_closed_delete_refuted : exists C h s, hist C empty_st h s /\ closed s = true /\
  exec (delete_obj C true 7) s = Some (s, Val tt) /\ exec (delete_obj C true 0) s = Some (s, Err EFileClosed).
Proof.
  destruct (script_witness ex_C [ SCall (CInsert true 0 (Object 0 ∅ (Some [0]%N))); SCall CClose ]
    (fun _ s => closed s && bool_decide (objs s !! le_put 8 7 = None) && bool_decide (is_Some (objs s !! le_put 8 0)))) as (h & s & Hh & H).
  { vm_compute. reflexivity. }
  repeat (apply andb_true_iff in H as [H ?]). repeat match goal with E : bool_decide _ = true |- _ => apply bool_decide_eq_true_1 in E end.
  exists ex_C, h, s. split; [done|]. split; [done|]. rewrite !C39_closed_delete_changes_nothing by done.
  match goal with E : is_Some _ |- _ => destruct E as [b Eb] end. split; [by replace (objs s !! le_put 8 7) with (@None bytes)|by rewrite Eb].
Qed.
Print Assumptions C39_closed_delete_refuted.

(** Close is what makes a collection closed. *)
Theorem C39_close_closes : forall s, closed s = false -> exists s', exec CollModel.close s = Some (s', Val tt) /\ closed s' = true.
Proof. intros s Hc. unfold CollModel.close. rewrite exec_act, Hc. eexists. split; [done|]. done. Qed.
Print Assumptions C39_close_closes.

(** ** C52 Update changes the stored object *)
Theorem C52_update_refuted : exists C h s o,
  hist C empty_st h s /\ exec (CollModel.update o) s = Some (s, Val tt) /\
  exists o', exec (CollModel.get C [o_id o]) s = Some (s, Val [o']) /\ o_vec o' <> o_vec o.
Proof.
  destruct (script_witness ex_C [ SCall (CInsert true 0 (Object 0 ∅ (Some [0]%N))) ]
    (fun _ s => negb (closed s) && match get_objects ex_json s [0%N] with Val [o'] => bool_decide (o_vec o' = Some [0%N]) | _ => false end)) as (h & s & Hh & H).
  { vm_compute. reflexivity. }
  apply andb_true_iff in H as [Hc H]. destruct (closed s) eqn:Ec; [done|].
  destruct (get_objects ex_json s [0%N]) as [[|o' [|]]| |] eqn:Eg; try done. apply bool_decide_eq_true_1 in H.
  exists ex_C, h, s, (Object 0 ∅ (Some [1065353216%N])). split; [done|].
  unfold CollModel.update, check_open. rewrite exec_act, Ec. split; [done|]. exists o'. unfold CollModel.get. rewrite exec_act, Ec. cbn [o_id].
  change (cp_json ex_C) with ex_json. rewrite Eg. split; [done|]. rewrite H. cbn. congruence.
Qed.
Print Assumptions C52_update_refuted.

(** In fact Update never changes anything. *)
Theorem C52_update_does_nothing : forall o s s' r, exec (CollModel.update o) s = Some (s', r) -> s' = s.
Proof. intros o s s' r Hx. unfold CollModel.update, check_open in Hx. rewrite exec_act in Hx. by apply Some_pair_inj in Hx as [<- _]. Qed.
Print Assumptions C52_update_does_nothing.

(** ** C20 Searching an empty collection returns no hits *)
(** On a collection that was never filled the search dereferences nil. *)
Theorem C20_empty_search_refuted : forall C o v k,
  o_vec o = Some v -> cp_embed C = None -> (0 <= k)%Z ->
  hist C empty_st [] empty_st /\ exec (semantic_search C 0 o k) empty_st = Some (empty_st, Pan PNil).
Proof.
  intros C o v k Hv He Hk. split; [constructor|]. unfold semantic_search. rewrite exec_bind. unfold check_open. rewrite exec_act. cbn [closed empty_st].
  rewrite exec_bind, exec_lift. unfold embed_objects. rewrite He. unfold existsb, needs_vec. rewrite Hv. cbn [orb].
  rewrite exec_bind. unfold hnsw_search. rewrite (proj2 (Z.ltb_ge _ _)) by done.
  rewrite exec_bind. unfold read_entry. rewrite exec_act. cbn [nodes ep empty_st]. by rewrite lookup_empty.
Qed.
Print Assumptions C20_empty_search_refuted.

(** Missing for the full claim: that the search answers at all. *)
Theorem C20_empty_search_partial : forall C h s o k s' n hs,
  hist C empty_st h s -> exec get_size s = Some (s, Val 0) ->
  exec (semantic_search C 0 o k) s = Some (s', Val (n, hs)) -> n = 0 /\ hs = [].
Proof.
  intros C h s o k s' n hs Hh Hz Hx.
  assert (Ho : objs s = ∅).
  { unfold get_size in Hz. rewrite exec_act in Hz. apply Some_pair_inj in Hz as [_ Hz]. destruct (closed s); [done|]. apply Val_inj in Hz.
    by apply map_size_empty_inv. }
  assert (Hhs : hs = []).
  { destruct hs as [|x hs]; [done|]. exfalso. destruct (search_hits _ _ _ _ _ _ _ x Hx) as (o' & Hg); [by left|].
    apply get_object_some in Hg as (_ & [b Hb] & _). rewrite Ho in Hb. by rewrite lookup_empty in Hb. }
  split; [|done]. subst hs. unfold semantic_search in Hx.
  apply exec_bind_val in Hx as (s1 & u & H1 & Hx). apply exec_bind_val in Hx as (s2 & os & H2 & Hx).
  destruct os as [|o' [|? ?]]; [done| |done]. apply exec_bind_val in Hx as (s3 & es & H3 & Hx).
  apply exec_bind_val in Hx as (s4 & ob & H4 & Hx). apply exec_bind_val in Hx as (s5 & hs' & H5 & Hx).
  rewrite exec_lift in H5. apply Some_pair_inj in H5 as [_ H5]. cbn in Hx. apply Some_pair_inj in Hx as [_ Hx]. apply Val_inj, pair_inj in Hx as [<- ->].
  destruct es as [|e es]; [done|]. destruct ob as [|o1 ob]; cbn [pair_results] in H5; [done|]. by destruct (pair_results ob es).
Qed.
Print Assumptions C20_empty_search_partial.

(** Everything deleted: size 0, and the search answers. *)
Example C20_case : exists h s s' , hist ex_C empty_st h s /\ exec get_size s = Some (s, Val 0) /\
  exec (semantic_search ex_C 0 (Object 0 ∅ (Some [0]%N)) 3) s = Some (s', Val (0, [])).
Proof.
  destruct (script_witness ex_C [ SCall (CInsert true 0 (Object 0 ∅ (Some [0]%N))); SCall (CInsert true 0 (Object 0 ∅ (Some [1065353216]%N)));
      SCall (CDelete true 0); SCall (CDelete true 1) ]
    (fun _ s => negb (closed s) && bool_decide (store_size s = 0) &&
       match exec (semantic_search ex_C 0 (Object 0 ∅ (Some [0]%N)) 3) s with Some (_, Val (O, [])) => true | _ => false end)) as (h & s & Hh & H).
  { vm_compute. reflexivity. }
  repeat (apply andb_true_iff in H as [H ?]).
  destruct (exec (semantic_search ex_C 0 (Object 0 ∅ (Some [0]%N)) 3) s) as [[s' [[[|n] [|]]| |]]|] eqn:E; try done.
  exists h, s, s'. split; [done|]. split; [|done]. unfold get_size. rewrite exec_act. destruct (closed s); [done|].
  match goal with E : bool_decide _ = true |- _ => apply bool_decide_eq_true_1 in E; by rewrite E end.
Qed.

(** ** C35 A batch insert inserts each object exactly once *)
Theorem C35_chunks_cover : forall A (w : nat) (l : list A), 0 < w ->
  mjoin ((fun i => chunk w i l) <$> seq 0 w) = l.
Proof. intros A w l Hw. by apply chunk_join. Qed.
Print Assumptions C35_chunks_cover.
Example C35_chunk_case : (fun i => chunk 3 i [1; 2; 3; 4; 5; 6; 7; 8]) <$> seq 0 3 = [[1; 2]; [3; 4]; [5; 6; 7; 8]].
Proof. reflexivity. Qed.

(** One worker; the first object of the batch is shorter than the stored
    vector, so the worker panics on it.  The pool swallows the panic and
    InsertBatch reports success although the second object was never looked at:
    afterwards there are two objects, one from before and the one that failed. *)
Definition ex_C_w1 : cparams := CParams (HParams 4 4 8 8 true Euclidean) [] None ex_json 65536 1 50.
Theorem C35_batch_inserts_all_refuted : exists C h s io ol s' rs,
  hist C empty_st h s /\ exec get_size s = Some (s, Val 1) /\ length ol = 2 /\ 0 < cp_workers C /\
  call_run C s (CBatch io ol) s' (RBatch (Val tt) rs) /\
  exec get_size s' = Some (s', Val 2) /\ acked (EvCall (CBatch io ol) (RBatch (Val tt) rs)) = [].
Proof.
  pose (c := CBatch true [(Object 0 ∅ (Some [0]%N), 0); (Object 0 ∅ (Some [1065353216; 0]%N), 0)]).
  destruct (script_witness ex_C_w1 [ SCall (CInsert true 0 (Object 0 ∅ (Some [0; 0]%N))) ]
    (fun _ s => negb (closed s) && bool_decide (store_size s = 1) &&
      match call_exec ex_C_w1 c [] 50 s with
      | Some (s', RBatch (Val tt) rs) => negb (closed s') && bool_decide (store_size s' = 2) && bool_decide (length (mjoin (out_list <$> rs)) = 0)
      | _ => false
      end)) as (h & s & Hh & H).
  { vm_compute. reflexivity. }
  repeat (apply andb_true_iff in H as [H ?]).
  destruct (call_exec ex_C_w1 c [] 50 s) as [[s' r]|] eqn:E; [|done]. destruct r as [|[[]| |] rs| | | | ]; try done.
  repeat match goal with E : _ && _ = true |- _ => apply andb_true_iff in E as [? ?] end.
  repeat match goal with E : bool_decide _ = true |- _ => apply bool_decide_eq_true_1 in E end.
  eexists ex_C_w1, h, s, _, _, s', rs. split; [done|]. split; [|split; [|split; [|split; [by eapply (call_exec_run _ c [] 50)|]]]].
  - unfold get_size. rewrite exec_act. destruct (closed s); [done|]. congruence.
  - done.
  - cbn. lia.
  - split; [unfold get_size; rewrite exec_act; destruct (closed s'); [done|congruence]|]. cbn [acked]. by apply nil_length_inv.
Qed.
Print Assumptions C35_batch_inserts_all_refuted.

Definition content (o : object) : props * option fvec := (o_props o, o_vec o).

Lemma batch_complete C s io ol s' rs :
  SInv s -> (cnt s + N.of_nat (length ol) < 2 ^ 64)%N -> 0 < cp_workers C ->
  call_run C s (CBatch io ol) s' (RBatch (Val tt) rs) \/ call_run C s (CBatch2 io ol) s' (RBatch (Val tt) rs) ->
  (forall r, r ∈ rs -> exists l, r = Val l) ->
  exists os, embed_objects C (ol.*1) = Val os /\ content <$> mjoin (out_list <$> rs) ≡ₚ content <$> os.
Proof.
  intros HI Hm Hw Hr Hv. destruct Hr as [Hr|Hr].
  - inversion Hr as [|io' ol' r1 Hp Hn|io' ol' os s1 r1 rs' Hp Hb| | | | | | | | ]; subst.
    { destruct (batch_prepare C s' ol.*1); [by edestruct Hn|done..]. }
    apply batch_prepare_val in Hp as (Hcl & _ & Hemb & Hlen). exists os. split; [done|].
    assert (Hzip : length (zip os ol.*2) = length ol) by (rewrite zip_with_length, fmap_length, Hlen, fmap_length; lia).
    assert (Hfst : (zip os ol.*2).*1 = os) by (apply fst_zip; rewrite fmap_length, Hlen, fmap_length; done).
    inversion Hb as [s2 rs2 s3 r3 H2 Hg Hfl|]; subst.
    destruct (batch_reach C (zip os ol.*2) s s2 _ Hcl (si_file _ HI) (si_chan _ HI) ltac:(by rewrite Hzip) H2) as (_ & ids & _ & Hd).
    destruct (Hd rs eq_refl) as (_ & _ & _ & Hperm & _). rewrite Hfst in Hperm. by apply Hperm.
  - inversion Hr as [| | |io' ol' r1 Hp Hn|io' ol' os s1 r1 rs' Hp Hb| | | | | | ]; subst.
    { destruct (batch_prepare C s' ol.*1); [by edestruct Hn|done..]. }
    apply batch_prepare_val in Hp as (Hcl & _ & Hemb & Hlen). exists os. split; [done|].
    assert (Hzip : length (zip os ol.*2) = length ol) by (rewrite zip_with_length, fmap_length, Hlen, fmap_length; lia).
    assert (Hfst : (zip os ol.*2).*1 = os) by (apply fst_zip; rewrite fmap_length, Hlen, fmap_length; done).
    inversion Hb as [s2 rs2 s3 r3 H2 Hg Hfl|]; subst.
    destruct (batch2_reach C (zip os ol.*2) s s2 _ Hcl (si_file _ HI) ltac:(by rewrite Hzip) H2) as (ids & _ & Hd).
    destruct (Hd rs eq_refl) as (_ & _ & _ & Hperm & _). rewrite Hfst in Hperm. by apply Hperm.
Qed.

(** A batch that succeeds has no failed worker. *)
Lemma batch_no_error C s c io ol s' rs e :
  c = CBatch io ol \/ c = CBatch2 io ol -> call_run C s c s' (RBatch (Val tt) rs) -> Err e ∉ rs.
Proof.
  intros Hcase Hr. destruct Hcase as [-> | ->]; inversion Hr as [|? ? ? Hp Hn|? ? ? ? ? ? Hp Hb|? ? ? Hp Hn|? ? ? ? ? ? Hp Hb| | | | | | ]; subst.
  all: try apply not_elem_of_nil.
  all: inversion Hb as [s2 rs2 s3 r3 H2 Hg Hfl|]; subst; apply Hg.
Qed.

(** Missing for the full claim: batches in which a worker panics. *)
Theorem C35_batch_inserts_all_partial : forall C h s io ol s' rs c,
  c = CBatch io ol \/ c = CBatch2 io ol ->
  hist C empty_st h s -> (N.of_nat (hist_inserts h + length ol) < 2 ^ 64)%N -> 0 < cp_workers C ->
  call_run C s c s' (RBatch (Val tt) rs) ->
  (forall p, Pan p ∉ rs) ->
  let os := acked (EvCall c (RBatch (Val tt) rs)) in
  (exists os0, embed_objects C (ol.*1) = Val os0 /\ content <$> os ≡ₚ content <$> os0) /\
  NoDup (o_id <$> os) /\ (forall id, id ∈ o_id <$> os -> id ∉ acked_ids h) /\
  ((cp_maxval C < 2 ^ 32)%N -> forall o, o ∈ os -> json_ok (cp_json C) (o_props o) -> Forall (fun f => (f < 2 ^ 32)%N) (default [] (o_vec o)) ->
    exec (CollModel.get C [o_id o]) s' = Some (s', Val [o])).
Proof.
  intros C h s io ol s' rs c Hcase Hh Hb Hw Hr Hp os.
  assert (Hv : forall r, r ∈ rs -> exists l, r = Val l).
  { intros [l|e|p] Hin; [by exists l|exfalso; by eapply batch_no_error|by destruct (Hp p)]. }
  clear Hp.
  destruct (hist0 _ _ _ Hh) as [HI Hc]; [lia|].
  assert (Hsub : ev_inserts (EvCall c (RBatch (Val tt) rs)) = length ol).
  { destruct Hcase as [-> | ->]; cbn; by rewrite fmap_length. }
  assert (Hh' : hist C empty_st (h ++ [EvCall c (RBatch (Val tt) rs)]) s') by (econstructor; [exact Hh|by constructor]).
  assert (Hb' : (N.of_nat (hist_inserts (h ++ [EvCall c (RBatch (Val tt) rs)])) < 2 ^ 64)%N) by (rewrite hist_inserts_snoc, Hsub; lia).
  split; [|split; [|split]].
  - eapply batch_complete; [exact HI| |exact Hw| |exact Hv]; [lia|]. destruct Hcase as [-> | ->]; eauto.
  - pose proof (C01_ids_never_reused _ _ _ Hh' Hb') as Hnd. unfold acked_ids in Hnd. rewrite fmap_app, mjoin_app, fmap_app in Hnd.
    apply NoDup_app in Hnd as (_ & _ & Hnd). cbn [fmap list_fmap mjoin list_join] in Hnd. by rewrite app_nil_r in Hnd.
  - intros id Hid Hin. pose proof (C01_ids_grow _ _ _ _ Hh' Hb' id id Hin) as Hlt.
    assert (id < id)%N; [|lia]. apply Hlt. unfold acked_ids. cbn [fmap list_fmap mjoin list_join]. by rewrite app_nil_r.
  - intros Hm o Ho Hj Hf. apply (C05_read_your_writes C h c (RBatch (Val tt) rs) [] s' o); try done.
    assert (Hcl : closed s = false).
    { destruct Hcase as [-> | ->]; inversion Hr as [| |? ? ? ? ? ? Hp| |? ? ? ? ? ? Hp| | | | | | ]; subst; try (by apply batch_prepare_val in Hp as (? & _)).
      all: match goal with H : forall os, ?x <> Val os |- _ => destruct x as [l| |] eqn:E; [by destruct (H l)|done..] end. }
    assert (Hk : closed s' = closed s); [|congruence].
    destruct Hcase as [-> | ->]; inversion Hr as [|? ? ? Hp Hn|io' ol' os1 s1 r1 rs' Hp Hb1|? ? ? Hp Hn|io' ol' os1 s1 r1 rs' Hp Hb1| | | | | | ]; subst; try done.
    all: apply batch_prepare_val in Hp as (_ & _ & Hemb & Hlen).
    all: assert (Hzip : length (zip os1 ol.*2) = length ol) by (rewrite zip_with_length, fmap_length, Hlen, fmap_length; lia).
    all: inversion Hb1 as [s2 rs2 s3 r3 H2 Hg Hfl|]; subst.
    all: pose proof (flush_store io s2) as (F1&F2&F3&F4&F5&F6); rewrite Hfl in F1,F2,F3,F4,F5,F6; cbn [fst] in *; cbn [closed set_chan].
    + destruct (batch_reach C (zip os1 ol.*2) s s2 _ Hcl (si_file _ HI) (si_chan _ HI) ltac:(rewrite Hzip; lia) H2) as (_ & ids & [W1 W2 W3 W4 W5 W6] & _). congruence.
    + destruct (batch2_reach C (zip os1 ol.*2) s s2 _ Hcl (si_file _ HI) ltac:(rewrite Hzip; lia) H2) as (ids & [W1 W2 W3 W4 W5 W6] & _). congruence.
Qed.
Print Assumptions C35_batch_inserts_all_partial.

(** A case meeting every hypothesis of C35: two workers, two stored objects. *)
Example C35_partial_case : exists h s s' rs,
  let ol := [(Object 0 ∅ (Some [1065353216]%N), 0); (Object 0 ∅ (Some [0]%N), 1)] in
  hist ex_C empty_st h s /\ call_run ex_C s (CBatch true ol) s' (RBatch (Val tt) rs) /\
  (forall p, Pan p ∉ rs) /\ length (mjoin (out_list <$> rs)) = 2 /\
  (N.of_nat (hist_inserts h + length ol) < 2 ^ 64)%N /\ 0 < cp_workers ex_C.
Proof.
  pose (c := CBatch true [(Object 0 ∅ (Some [1065353216]%N), 0); (Object 0 ∅ (Some [0]%N), 1)]).
  destruct (script_witness ex_C []
    (fun h s => bool_decide (hist_inserts h = 0) && match call_exec ex_C c [] 50 s with
      | Some (s', RBatch (Val tt) rs) => forallb (fun r => match r with Val _ => true | _ => false end) rs && bool_decide (length (mjoin (out_list <$> rs)) = 2)
      | _ => false
      end)) as (h & s & Hh & H).
  { vm_compute. reflexivity. }
  apply andb_true_iff in H as [H0 H]. apply bool_decide_eq_true_1 in H0.
  destruct (call_exec ex_C c [] 50 s) as [[s' r]|] eqn:E; [|done]. destruct r as [|[[]| |] rs| | | | ]; try done.
  apply andb_true_iff in H as [H1 H2]. apply bool_decide_eq_true_1 in H2.
  eexists h, s, s', rs. split; [done|]. split; [by eapply (call_exec_run _ c [] 50)|]. split; [|split; [done|]].
  - intros p Hr. rewrite forallb_forall in H1. specialize (H1 (Pan p)). rewrite <- elem_of_list_In in H1. by specialize (H1 Hr).
  - rewrite H0. cbn. lia.
Qed.

(** ** C50 Vectors of a wrong dimension *)
(** A collection holding one vector of dimension 1 accepts a vector of dimension
    2 and answers a query of dimension 3. *)
Theorem C50_wrong_dimension_refuted : exists C h s o s' r s2 n hs,
  hist C empty_st h s /\ exec get_size s = Some (s, Val 1) /\
  (forall e o1, e ∈ h -> o1 ∈ acked e -> (length <$> o_vec o1) = Some 1) /\
  call_run C s (CInsert true 0 o) s' (RIns (Val r)) /\ (length <$> o_vec o) = Some 2 /\ exec get_size s' = Some (s', Val 2) /\
  call_run C s (CSearch (Object 0 ∅ (Some [0; 0; 0]%N)) 1) s2 (RSearch (Val (n, hs))) /\ n = 1.
Proof.
  pose (o := Object 0 ∅ (Some [0; 1065353216]%N)). pose (q := Object 0 ∅ (Some [0; 0; 0]%N)).
  destruct (script_witness ex_C [ SCall (CInsert true 0 (Object 0 ∅ (Some [0%N]))) ]
    (fun h s => negb (closed s) && bool_decide (store_size s = 1) &&
      forallb (fun e => forallb (fun o1 => bool_decide ((length <$> o_vec o1) = Some 1)) (acked e)) h &&
      match call_exec ex_C (CInsert true 0 o) [] 50 s with
      | Some (s', RIns (Val _)) => negb (closed s') && bool_decide (store_size s' = 2)
      | _ => false
      end &&
      match exec (semantic_search ex_C 0 q 1) s with
      | Some (_, Val (n, _)) => n =? 1
      | _ => false
      end)) as (h & s & Hh & H).
  { vm_compute. reflexivity. }
  repeat (apply andb_true_iff in H as [H ?]).
  destruct (call_exec ex_C (CInsert true 0 o) [] 50 s) as [[s' r]|] eqn:E; [|done]. destruct r as [[r| |]| | | | | ]; try done.
  destruct (exec (semantic_search ex_C 0 q 1) s) as [[s2 [[n hs]| |]]|] eqn:E2; try done.
  repeat match goal with E : _ && _ = true |- _ => apply andb_true_iff in E as [? ?] end.
  repeat match goal with E : bool_decide _ = true |- _ => apply bool_decide_eq_true_1 in E end.
  exists ex_C, h, s, o, s', r, s2, n, hs. split; [done|]. split; [|split; [|split; [|split; [done|split; [|split]]]]].
  - unfold get_size. rewrite exec_act. destruct (closed s); [done|]. congruence.
  - intros e o1 He Ho. match goal with H : forallb _ h = true |- _ => rename H into Hf end.
    rewrite forallb_forall in Hf. specialize (Hf e). rewrite <- elem_of_list_In in Hf.
    specialize (Hf He). rewrite forallb_forall in Hf. specialize (Hf o1). rewrite <- elem_of_list_In in Hf.
    specialize (Hf Ho). by apply bool_decide_eq_true_1 in Hf.
  - by eapply (call_exec_run _ (CInsert true 0 o) [] 50).
  - unfold get_size. rewrite exec_act. destruct (closed s'); [done|]. congruence.
  - by constructor.
  - by apply Nat.eqb_eq.
Qed.
Print Assumptions C50_wrong_dimension_refuted.

Lemma euclid_loop_short v1 v2 s : length v2 < length v1 -> euclid_loop v1 v2 s = Pan PIndex.
Proof.
  revert v2 s. induction v1 as [|a v1 IH]; intros [|b v2] s Hl; cbn [length euclid_loop] in *; try lia; [done|].
  apply IH. lia.
Qed.
Lemma euclid_short v1 v2 : length v2 < length v1 -> euclidean v1 v2 = Pan PIndex.
Proof. intros Hl. unfold euclidean. by rewrite (euclid_loop_short _ _ _ Hl). Qed.

(** What holds: with the Euclidean distance a query that is shorter than the
    vector of the entry point gets no answer - the call panics before it has
    touched anything. *)
Theorem C50_short_query_partial : forall C s o q v k,
  hp_dist (cp_h C) = Euclidean -> closed s = false -> embed_objects C [o] = Val [Object (o_id o) (o_props o) (Some q)] ->
  (0 <= k)%Z -> nodes s !! ep s = Some v -> length q < length (v_vec v) ->
  exec (semantic_search C 0 o k) s = Some (s, Pan PIndex).
Proof.
  intros C s o q v k Hd Hcl He Hk Hv Hl. unfold semantic_search, check_open.
  rewrite exec_bind, exec_act, Hcl. rewrite exec_bind, exec_lift, He. cbv beta iota.
  rewrite exec_bind. unfold hnsw_search. destruct (k <? 0)%Z eqn:Ek; [lia|]. cbv beta iota.
  rewrite exec_bind. unfold read_entry. rewrite exec_act, Hv.
  change (v0 ← or_pan PNil (Some v); Val (ep s, v0, maxl s)) with (Val (ep s, v, maxl s)). cbv beta iota.
  rewrite exec_bind, exec_lift. unfold dist. rewrite Hd. cbn [dist_func]. change (vec_or_nil _) with q.
  by rewrite (euclid_short _ _ Hl).
Qed.
Print Assumptions C50_short_query_partial.
Example C50_short_query_case : exists h s v,
  hist ex_C empty_st h s /\ closed s = false /\ nodes s !! ep s = Some v /\ length [0%N] < length (v_vec v) /\
  embed_objects ex_C [Object 0 ∅ (Some [0%N])] = Val [Object 0 ∅ (Some [0%N])] /\ ep s <> cnt s.
Proof.
  destruct (script_witness ex_C [ SCall (CInsert true 0 (Object 0 ∅ (Some [0; 0]%N))) ]
    (fun h s => negb (closed s) && negb (ep s =? cnt s)%N && match nodes s !! ep s with Some v => length (v_vec v) =? 2 | None => false end)) as (h & s & Hh & H).
  { vm_compute. reflexivity. }
  repeat (apply andb_true_iff in H as [H ?]). destruct (nodes s !! ep s) as [v|] eqn:Ev; [|done].
  exists h, s, v. split; [done|]. split; [by destruct (closed s)|]. split; [done|].
  apply Nat.eqb_eq in H0. split; [cbn [length]; change (length (v_vec v)) with (@length N (v_vec v)); unfold fvec, f32 in *; lia|].
  split; [done|]. destruct (N.eqb_spec (ep s) (cnt s)); done.
Qed.

Lemma put_object_index J m o s s' r : exec (put_object J m o) s = Some (s', r) -> nodes s' = nodes s /\ ep s' = ep s.
Proof.
  apply (steps_exec (fun s s' => nodes s' = nodes s /\ ep s' = ep s)).
  - done.
  - intros a b c [] []. split; congruence.
  - unfold put_object. apply steps_bind; [done|intros ob]. apply steps_bind; [done|intros vb].
    apply steps_bind; [|intros _]; apply steps_act; intros s0; unfold bc_put; (destruct (_ <? _)%N; [done|by destruct (closed s0)]).
Qed.
(** Likewise an insert of a vector shorter than the entry point's never reports
    success (but, unlike the claim demands, it has stored the object by then:
    see [C35_batch_inserts_all_refuted]). *)
Theorem C50_short_insert_partial : forall C s o q v io level s' o',
  hp_dist (cp_h C) = Euclidean -> embed_objects C [o] = Val [Object (o_id o) (o_props o) (Some q)] ->
  nodes s !! ep s = Some v -> ep s <> cnt s -> length q < length (v_vec v) ->
  exec (CollModel.insert C 0 io level o) s <> Some (s', Val o').
Proof.
  intros C s o q v io level s' o' Hd He Hv Hne Hl Hx. unfold CollModel.insert in Hx.
  apply exec_bind_val in Hx as (s1 & u & H1 & Hx). unfold check_open in H1. rewrite exec_act in H1. apply Some_pair_inj in H1 as [<- _].
  apply exec_bind_val in Hx as (s1 & u' & H1 & Hx). rewrite exec_lift in H1. apply Some_pair_inj in H1 as [<- _].
  apply exec_bind_val in Hx as (s1 & os & H1 & Hx). rewrite exec_lift, He in H1. apply Some_pair_inj in H1 as [<- H1]. apply Val_inj in H1 as <-.
  apply exec_bind_val in Hx as (s1 & o2 & Hx & _). unfold insert_one in Hx.
  apply exec_bind_val in Hx as (s2 & id & H1 & Hx).
  assert (Hs : nodes s2 = nodes s /\ ep s2 = ep s /\ id = cnt s).
  { unfold fetch_and_inc in H1. rewrite exec_act in H1. destruct (closed s); [done|]. apply Some_pair_inj in H1 as [<- H1]. apply Val_inj in H1 as <-. done. }
  clear H1. destruct Hs as (Hn1 & He1 & ->).
  apply exec_bind_val in Hx as (s3 & u3 & H3 & Hx).
  assert (Hs : nodes s3 = nodes s2 /\ ep s3 = ep s2).
  { eapply put_object_index. exact H3. }
  clear H3. destruct Hs as (Hn2 & He2).
  apply exec_bind_val in Hx as (s4 & u4 & Hx & _). unfold hnsw_insert in Hx.
  apply exec_bind_val in Hx as (s5 & first & H5 & Hx).
  assert (Hs : first = false /\ nodes s5 = nodes s3 /\ ep s5 = ep s3).
  { unfold once_insert in H5. destruct (enc_set_entry _ _), (enc_add_vertex _ _); try done. rewrite exec_act in H5.
    assert (Hnn : nodes s3 <> ∅) by (intros Hz; rewrite Hn2, Hn1 in Hz; rewrite Hz, lookup_empty in Hv; done).
    destruct (once s3); [by apply Some_pair_inj in H5 as [<- [= <-]]|].
    rewrite bool_decide_eq_false_2 in H5 by done. by apply Some_pair_inj in H5 as [<- [= <-]]. }
  clear H5. destruct Hs as (-> & Hn3 & He3). cbv beta iota in Hx.
  apply exec_bind_val in Hx as (s6 & u6 & H6 & Hx).
  assert (Hs : nodes s6 = nodes s5 /\ ep s6 = ep s5).
  { unfold wal_write in H6. destruct (enc_add_vertex _ _); [|done..]. rewrite exec_act in H6. by apply Some_pair_inj in H6 as [<- _]. }
  clear H6. destruct Hs as (Hn4 & He4).
  apply exec_bind_val in Hx as (s7 & u7 & H7 & Hx).
  unfold add_node in H7. rewrite exec_act in H7. apply Some_pair_inj in H7 as [<- _].
  apply exec_bind_val in Hx as (s8 & [[epid epv] cur] & H8 & Hx).
  unfold read_entry in H8. rewrite exec_act in H8. cbn [nodes set_nodes ep maxl] in H8.
  rewrite lookup_insert_ne in H8 by congruence.
  rewrite Hn4, Hn3, Hn2, Hn1, He4, He3, He2, He1, Hv in H8. cbn in H8. apply Some_pair_inj in H8 as [<- H8]. apply Val_inj in H8. injection H8 as <- <- _.
  apply exec_bind_val in Hx as (s9 & d & H9 & _). rewrite exec_lift in H9. unfold dist in H9. rewrite Hd in H9.
  cbn [dist_func] in H9. change (vec_or_nil _) with q in H9. by rewrite (euclid_short _ _ Hl) in H9.
Qed.
Print Assumptions C50_short_insert_partial.
