(** C116: a collection's configuration and the caller's memory. *)
From Verif Require Import GoBase FloatModel HeapModel ProgModel StateModel WalModel HnswModel StoreModel CollModel CallModel AliasModel
  ProofBase CallProofs HistProofs HistRun PropStore.
Open Scope nat_scope.

(** ** C116 A collection keeps the mappings it was created with *)
(** The array a struct's Mappings lie in. *)
Definition array_of (m : amem) (p : nat) : option nat := f ← am_cfg m !! p; fst <$> ac_maps f.
(** The caller does not write into that array. *)
Definition keeps_off (a : option nat) (e : aev) : Prop := match e with ASetElem a' _ _ => Some a' <> a | _ => True end.

Record aok (m : amem) : Prop := MkAok {
  ao_colls : forall c p, am_colls m !! c = Some p -> p < length (am_cfg m);
  ao_once : NoDup (am_colls m);
  ao_known : forall p, p ∈ am_known m -> p < length (am_cfg m)
}.
Lemma astep_ok m e : aok m -> aok (astep m e).
Proof.
  intros [H1 H2 H3]. destruct e as [xs|f|p|c|a i x|p s]; cbn [astep]; try (by split).
  - split; cbn [am_cfg am_colls am_known]; rewrite ?app_length; cbn [length]; [intros c p Hc; apply H1 in Hc; lia|done|intros p [-> |Hp]%elem_of_cons; [lia|apply H3 in Hp; lia]].
  - destruct (am_cfg m !! p) as [f|] eqn:Hf; [|by split]. destruct (decide _); [|by split]. split; cbn [am_cfg am_colls am_known]; rewrite ?app_length; cbn [length].
    + intros c q [Hc|[_ Hc]]%lookup_app_Some; [apply H1 in Hc; lia|]. apply list_lookup_singleton_Some in Hc as [_ <-]. lia.
    + apply NoDup_app. split_and!; [done| |apply NoDup_singleton]. intros q [c Hc]%elem_of_list_lookup ->%elem_of_list_singleton. apply H1 in Hc. lia.
    + intros q Hq. apply H3 in Hq. lia.
  - destruct (am_colls m !! c) as [p|] eqn:Hc; [|by split]. split; cbn [am_cfg am_colls am_known]; [done|done|]. intros q [-> |Hq]%elem_of_cons; [by eapply H1|auto].
  - destruct (decide _); [|by split]. split; cbn [am_cfg am_colls am_known]; rewrite ?alter_length; auto.
Qed.
Lemma arun_ok evs : forall m, aok m -> aok (arun m evs).
Proof. induction evs as [|e evs IH]; intros m Hm; [done|]. apply (IH (astep m e)), astep_ok, Hm. Qed.
Lemma amem0_ok : aok amem0.
Proof. split; cbn; [intros c p H; by rewrite lookup_nil in H|constructor|intros p H; by apply elem_of_nil in H]. Qed.

(** One step that leaves collection [c] alone. *)
Lemma astep_keeps m e c p f : aok m -> am_colls m !! c = Some p -> am_cfg m !! p = Some f -> p ∉ am_known m -> e <> AGet c -> keeps_off (fst <$> ac_maps f) e ->
  let m' := astep m e in am_colls m' !! c = Some p /\ am_cfg m' !! p = Some f /\ p ∉ am_known m' /\ (strings m (ac_maps f) <> None -> strings m' (ac_maps f) = strings m (ac_maps f)).
Proof.
  intros Hok Hc Hp Hk Hg Ho. cbv zeta. pose proof (ao_colls _ Hok _ _ Hc) as Hlt. destruct e as [xs|g|q|d|a i x|q s]; cbn [astep].
  - split_and!; try done. unfold strings. destruct (ac_maps f) as [[a n]|]; [|done]. cbn [am_arr]. intros Hs. destruct (am_arr m !! a) as [l|] eqn:Ha; [|done]. by rewrite (lookup_app_l_Some _ _ _ _ Ha).
  - split_and!; cbn [am_colls am_cfg am_known]; try done; [by apply lookup_app_l_Some|]. intros [-> |?]%elem_of_cons; [lia|done].
  - destruct (am_cfg m !! q) as [g|]; [|done]. destruct (decide _); [|done]. split_and!; cbn [am_colls am_cfg am_known]; try done; by apply lookup_app_l_Some.
  - destruct (am_colls m !! d) as [q|] eqn:Hd; [|done]. split_and!; cbn [am_colls am_cfg am_known]; try done. intros [-> |?]%elem_of_cons; [|done].
    apply Hg. f_equal. eapply NoDup_lookup; [apply Hok|done..].
  - split_and!; try done. intros _. unfold strings. destruct (ac_maps f) as [[b n]|]; [|done]. cbn [am_arr]. rewrite list_lookup_alter_ne; [done|]. cbn in Ho. congruence.
  - destruct (decide _) as [Hq|]; [|done]. split_and!; cbn [am_colls am_cfg am_known]; try done. rewrite list_lookup_alter_ne; [done|]. by intros ->.
Qed.
Lemma arun_keeps evs : forall m c p f, aok m -> am_colls m !! c = Some p -> am_cfg m !! p = Some f -> p ∉ am_known m -> AGet c ∉ evs ->
  Forall (keeps_off (fst <$> ac_maps f)) evs -> strings m (ac_maps f) <> None -> maps_of (arun m evs) c = strings m (ac_maps f).
Proof.
  induction evs as [|e evs IH]; intros m c p f Hok Hc Hp Hk Hg Ho Hs.
  - unfold arun, maps_of, maps_at. cbn [foldl]. rewrite Hc. cbn. by rewrite Hp.
  - apply not_elem_of_cons in Hg as [Hg1 Hg]. apply Forall_cons in Ho as [Ho1 Ho].
    destruct (astep_keeps m e c p f Hok Hc Hp Hk ltac:(congruence) Ho1) as (H1 & H2 & H3 & H4). specialize (H4 Hs). rewrite <- H4. apply (IH (astep m e) c p f); try done; [by apply astep_ok|congruence].
Qed.

(** The full statement fails twice.  The caller changes an element of the slice it
    passed to CreateCollection, and objects that were accepted are refused. *)
Definition share : list aev := [AArr ["a"%string]; ANew (ACfg "x"%string (Some (0, 1))); ACreate 0].
Definition ob1 : object := ob_a 1 [7]%N.
Theorem C116_shared_array_refuted : exists m m' ms ms', m = arun amem0 share /\ m' = arun m [ASetElem 0 0 "b"%string] /\
  maps_of m 0 = Some ms /\ maps_of m' 0 = Some ms' /\
  validate_objects (with_maps ex_C_a ms) 0 [ob1] = Val tt /\ validate_objects (with_maps ex_C_a ms') 0 [ob1] = Err (EMappingMissing 0 "b"%string).
Proof. eexists _, _, _, _. split; [reflexivity|]. split; [reflexivity|]. split; [vm_compute; reflexivity|]. split; [vm_compute; reflexivity|]. split; vm_compute; reflexivity. Qed.
Print Assumptions C116_shared_array_refuted.
(** Or it sets a field of what GetConfig returned. *)
Theorem C116_get_config_refuted : exists m m' ms ms', m = arun amem0 share /\ m' = arun m [AGet 0; ASetMaps 1 None] /\
  maps_of m 0 = Some ms /\ maps_of m' 0 = Some ms' /\
  validate_objects (with_maps ex_C_a ms) 0 [ob1] = Val tt /\ validate_objects (with_maps ex_C_a ms') 0 [ob1] = Err (EMappingLen 0).
Proof. eexists _, _, _, _. split; [reflexivity|]. split; [reflexivity|]. split; [vm_compute; reflexivity|]. split; [vm_compute; reflexivity|]. split; vm_compute; reflexivity. Qed.
Print Assumptions C116_get_config_refuted.

(** Missing: callers that write into the array, or ask for the configuration of
    the collection.  Whatever else they do to their memory, their own struct included,
    and to other collections, the mappings stay those of the struct at the time. *)
Theorem C116_mappings_kept_partial : forall evs1 p evs2 m c ms, m = arun amem0 evs1 -> p ∈ am_known m -> maps_at m p = Some ms -> c = length (am_colls m) ->
  AGet c ∉ evs2 -> Forall (keeps_off (array_of m p)) evs2 ->
  maps_of (arun m (ACreate p :: evs2)) c = Some ms.
Proof.
  intros evs1 p evs2 m c ms -> Hk Hm -> Hg Ho. pose proof (arun_ok evs1 amem0 amem0_ok) as Hok. set (m := arun amem0 evs1) in *. unfold maps_at, array_of in *.
  destruct (am_cfg m !! p) as [f|] eqn:Hp; [|done]. cbn [mbind option_bind] in *.
  assert (E : astep m (ACreate p) = AMem (am_arr m) (am_cfg m ++ [f]) (am_colls m ++ [length (am_cfg m)]) (am_known m)). { cbn [astep]. rewrite Hp. by rewrite decide_True. }
  pose proof (astep_ok m (ACreate p) Hok) as Hok1. change (arun m (ACreate p :: evs2)) with (arun (astep m (ACreate p)) evs2). rewrite E in *.
  rewrite (arun_keeps evs2 _ (length (am_colls m)) (length (am_cfg m)) f); [exact Hm|done|..]; cbn [am_colls am_cfg am_known].
  - by rewrite lookup_app_r, Nat.sub_diag.
  - by rewrite lookup_app_r, Nat.sub_diag.
  - intros H%(ao_known _ Hok). lia.
  - done.
  - exact Ho.
  - unfold strings in *. cbn [am_arr]. by rewrite Hm.
Qed.
Print Assumptions C116_mappings_kept_partial.
(** The caller uses its struct again for another collection, after changing it,
    asks for the configuration of that one, and writes into the array of that one. *)
Definition C116_evs1 : list aev := [AArr ["a"%string]; AArr ["b"; "c"]%string; ANew (ACfg "x"%string (Some (0, 1)))].
Definition C116_evs2 : list aev := [ASetMaps 0 (Some (1, 2)); ACreate 0; AGet 1; ASetMaps 2 None; ASetElem 1 0 "d"%string].
Example C116_case : 0 ∈ am_known (arun amem0 C116_evs1) /\ maps_at (arun amem0 C116_evs1) 0 = Some ["a"%string] /\ AGet 0 ∉ C116_evs2 /\
  Forall (keeps_off (array_of (arun amem0 C116_evs1) 0)) C116_evs2 /\
  maps_of (arun (arun amem0 C116_evs1) (ACreate 0 :: C116_evs2)) 0 = Some ["a"%string] /\
  maps_of (arun (arun amem0 C116_evs1) (ACreate 0 :: C116_evs2)) 1 = Some [].
Proof.
  split; [by left|]. split; [vm_compute; reflexivity|]. split.
  { unfold C116_evs2. rewrite !not_elem_of_cons. split_and!; try discriminate. apply not_elem_of_nil. }
  split; [repeat (apply Forall_cons; split; [first [exact I|vm_compute; discriminate]|]); constructor|]. split; vm_compute; reflexivity.
Qed.
