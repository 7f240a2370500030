(** Reading the stores: what Get sees. *)
From stdpp Require Import relations sorting.
From Verif Require Import GoBase FloatModel HeapModel ProgModel StateModel WalModel HnswModel StoreModel CollModel CallModel
  ProofBase CodecProofs CodecSpec LogProofs WpProofs StepProofs SimProofs StoreProofs CallProofs HistProofs.
Open Scope nat_scope.
Local Arguments id_key _ : simpl never.
Local Arguments le_put _ _ : simpl never.

(** Every map the JSON encoder accepts can be decoded again. *)
Definition json_total (J : json) : Prop := forall p b, j_enc J p = Some b -> exists q, j_dec J b = Some q.
(** ... and decodes to itself. *)
Definition json_exact (J : json) : Prop := forall p b, j_enc J p = Some b -> j_dec J b = Some p.

Section view.
  Context (C : cparams).
  Notation J := (cp_json C).

  Lemma get_object_id s id o : get_object J s id = Val (Some o) -> o_id o = id.
  Proof.
    unfold get_object. destruct (objs s !! id_key id) as [ob|]; [|done]. destruct (closed s); [done|].
    destruct (vecs s !! id_key id) as [vb|]; [|done]. destruct (de_props J ob) as [p|e|z]; [|done..]. cbn.
    destruct (de_vec vb) as [v|e|z]; [|done..]. cbn. by intros [= <-].
  Qed.
  Lemma get_object_some s id o :
    get_object J s id = Val (Some o) -> closed s = false /\ is_Some (objs s !! id_key id) /\ is_Some (vecs s !! id_key id).
  Proof.
    unfold get_object. destruct (objs s !! id_key id) as [ob|]; [|done]. destruct (closed s); [done|].
    destruct (vecs s !! id_key id) as [vb|]; [|done]. eauto.
  Qed.
  Lemma get_objects_in s ids os o : get_objects J s ids = Val os -> o ∈ os -> o_id o ∈ ids /\ get_object J s (o_id o) = Val (Some o).
  Proof.
    revert os. induction ids as [|id ids IH]; intros os; cbn [get_objects].
    - intros <-%Val_inj Ho. by apply elem_of_nil in Ho.
    - destruct (get_object J s id) as [x|e|z] eqn:Ex; [|done..]. cbn [mbind out_bind].
      destruct (get_objects J s ids) as [l|e|z] eqn:El; [|done..]. cbn [mbind out_bind]. intros <-%Val_inj.
      destruct x as [o1|].
      + intros [->|Ho]%elem_of_cons; [|destruct (IH _ eq_refl Ho); set_solver].
        pose proof (get_object_id _ _ _ Ex) as Hid. rewrite Hid. split; [left|done].
      + intros Ho. destruct (IH _ eq_refl Ho). set_solver.
  Qed.
  Lemma get_objects_omap s ids (L : N -> option object) :
    (forall id, get_object J s id = Val (L id)) -> get_objects J s ids = Val (omap L ids).
  Proof.
    intros H. induction ids as [|id ids IH]; [done|]. cbn [get_objects]. rewrite H, IH. cbn. by destruct (L id).
  Qed.

  (** In a state whose stores hold encodings, reading never fails. *)
  Lemma de_enc_vec v b : ser_vec v = Val b -> (N.of_nat (length b) < 2 ^ 32)%N -> exists w, de_vec b = Val w.
  Proof.
    rewrite ser_vec_eq. intros <-%Val_inj. rewrite app_length, le_put_length, le_floats_length. intros Hl.
    assert (E : le_floats v = le_floats ((fun x => x mod 2 ^ 32)%N <$> v)).
    { unfold le_floats. f_equal. rewrite <- list_fmap_compose. apply list_fmap_ext. intros i x _. cbn.
      rewrite <- (le_put_mod 4 x). by rewrite pow256_4. }
    exists ((fun x => x mod 2 ^ 32)%N <$> v).
    pose proof (de_ser_vec ((fun x => x mod 2 ^ 32)%N <$> v) [] (le_put 4 (u32 (N.of_nat (length v))) ++ le_floats v)) as H.
    rewrite app_nil_r in H. apply H.
    - split; [|change (2 ^ 32)%N with 4294967296%N in *; rewrite fmap_length; unfold fvec in *; clear -Hl; change (length v) with (@length N v) in *; lia]. apply Forall_fmap, Forall_true. intros x. cbn. apply N.mod_lt. done.
    - rewrite ser_vec_eq, fmap_length. by rewrite E.
  Qed.

  (** A stored object can be read back. *)
  Lemma stored_get s o :
    stored C s o -> closed s = false -> (cp_maxval C < 2 ^ 32)%N -> json_ok J (o_props o) ->
    Forall (fun f => (f < 2 ^ 32)%N) (vec_or_nil o) ->
    get_object J s (o_id o) = Val (Some (Object (o_id o) (o_props o) (Some (vec_or_nil o)))).
  Proof.
    intros (ob & vb & Eo & Ev & Ho & Hv & Lo & Lv) Hc Hm (js & E1 & E2) Hf. unfold get_object. rewrite Ho, Hc, Hv.
    pose proof (ser_props_eq _ _ _ E1) as E3. rewrite Eo in E3. apply Val_inj in E3.
    assert (Hjs : (N.of_nat (length js) < 2 ^ 32)%N).
    { rewrite E3, app_length, le_put_length in Lo. lia. }
    destruct (de_ser_props J _ _ [] E1 Hjs) as (b & Eb & Hd). rewrite Eo in Eb. apply Val_inj in Eb as <-.
    rewrite app_nil_r, E2 in Hd. rewrite Hd. cbn [mbind out_bind].
    assert (Hw : vec_wf (vec_or_nil o)).
    { split; [done|]. pose proof Ev as Ev'. rewrite ser_vec_eq in Ev'. apply Val_inj in Ev'.
      rewrite <- Ev', app_length, le_put_length, le_floats_length in Lv. lia. }
    pose proof (de_ser_vec _ [] _ Hw Ev) as Hd2. rewrite app_nil_r in Hd2. rewrite Hd2. done.
  Qed.

  (** Reading from stores that hold encodings never fails. *)
  Lemma enc_get_object s :
    enc_ok C s -> (cp_maxval C < 2 ^ 32)%N -> json_total J -> closed s = false ->
    forall id, exists x, get_object J s id = Val x /\
      (is_Some x <-> is_Some (objs s !! id_key id) /\ is_Some (vecs s !! id_key id)).
  Proof.
    intros [H1 H2] Hm Hj Hc id. unfold get_object.
    destruct (objs s !! id_key id) as [ob|] eqn:Eo.
    2:{ exists None. split; [done|]. split; [by intros [? ?]|by intros [[? ?] _]]. }
    rewrite Hc. destruct (vecs s !! id_key id) as [vb|] eqn:Ev.
    2:{ exists None. split; [done|]. split; [by intros [? ?]|by intros [_ [? ?]]]. }
    destruct (H1 _ _ Eo) as (Lo & p & Ep). destruct (H2 _ _ Ev) as (Lv & v & Evv).
    destruct (j_enc J p) as [js|] eqn:Ej; [|unfold ser_props in Ep; by rewrite Ej in Ep].
    destruct (Hj _ _ Ej) as (q & Eq).
    pose proof (ser_props_eq _ _ _ Ej) as E3. rewrite Ep in E3. apply Val_inj in E3.
    assert (Hjs : (N.of_nat (length js) < 2 ^ 32)%N).
    { rewrite E3, app_length, le_put_length in Lo. lia. }
    destruct (de_ser_props J _ _ [] Ej Hjs) as (b & Eb & Hd). rewrite Ep in Eb. apply Val_inj in Eb as <-.
    rewrite app_nil_r, Eq in Hd. rewrite Hd. cbn [mbind out_bind].
    destruct (de_enc_vec v vb Evv) as (w & ->); [lia|]. eexists. split; [done|]. split; eauto.
  Qed.
End view.

(** A found object was stored, hence its id was handed out before. *)
Lemma get_object_key_id s (J : json) id o : SInv s -> (cnt s < 2 ^ 64)%N -> (id < 2 ^ 64)%N -> get_object J s id = Val (Some o) -> (id < cnt s)%N.
Proof.
  intros HI Hc Hid Hg. unfold get_object in Hg. destruct (objs s !! id_key id) as [ob|] eqn:Eo; [|done].
  destruct (si_keys _ HI (id_key id)) as (i & Ei & Hi); [left; by eexists|].
  apply id_key_inj in Ei; [by subst i|done|lia].
Qed.

(** A search answer only contains objects that Get would find. *)
Lemma search_hits C s o k s' n hs x :
  exec (semantic_search C 0 o k) s = Some (s', Val (n, hs)) -> x ∈ hs ->
  exists o', get_object (cp_json C) s (h_id x) = Val (Some o').
Proof.
  unfold semantic_search. intros Hx Hin.
  apply exec_bind_val in Hx as (s1 & u & H1 & Hx). unfold check_open in H1. rewrite exec_act in H1. apply Some_pair_inj in H1 as [<- _].
  apply exec_bind_val in Hx as (s1 & os & H1 & Hx). rewrite exec_lift in H1. apply Some_pair_inj in H1 as [<- _].
  destruct os as [|o' [|? ?]]; [done| |done].
  apply exec_bind_val in Hx as (s1 & es & H1 & Hx).
  assert (Hk : keep_store s s1).
  { eapply (steps_exec keep_store keep_store_refl keep_store_trans); [apply search_keep_store|exact H1]. }
  apply exec_bind_val in Hx as (s2 & ob & H2 & Hx). rewrite exec_act in H2. apply Some_pair_inj in H2 as [<- H2].
  apply exec_bind_val in Hx as (s3 & hs' & H3 & Hx). rewrite exec_lift in H3. apply Some_pair_inj in H3 as [<- H3].
  cbn in Hx. apply Some_pair_inj in Hx as [_ Hx]. apply Val_inj, pair_inj in Hx as [_ ->].
  assert (Hp : exists o1, o1 ∈ ob /\ o_id o1 = h_id x).
  { clear -H3 Hin. revert ob hs H3 Hin. induction es as [|e es IH]; intros ob hs; [|cbn [pair_results]].
    - assert (E0 : pair_results ob [] = Val []) by (destruct ob; reflexivity). rewrite E0. intros <-%Val_inj Hin. by apply elem_of_nil in Hin.
    - destruct ob as [|o1 ob]; cbn [pair_results]; [done|]. destruct (pair_results ob es) as [r|e0|z] eqn:E; [|done..]. cbn [mbind out_bind].
      intros <-%Val_inj [->|Hin]%elem_of_cons; [exists o1; split; [left|done]|].
      destruct (IH ob r E Hin) as (o2 & H & H'). exists o2. split; [by right|done]. }
  destruct Hp as (o1 & Ho1 & <-). destruct (get_objects_in C _ _ _ _ H2 Ho1) as [_ Hg]. exists o1.
  destruct Hk as (K1&K2&K3&K4&K5&K6&K7&K8). unfold get_object in *. by rewrite K5, K6, K8 in Hg.
Qed.
