(** What is on disk rebuilds the index in memory, for calls made one after
    another. *)
From stdpp Require Import relations.
From Verif Require Import GoBase FloatModel HeapModel ProgModel StateModel WalModel HnswModel StoreModel CollModel CallModel
  ProofBase CodecProofs CodecSpec LogProofs WpProofs StepProofs SeqLog IndexProofs SimProofs StoreProofs CallProofs HistProofs WalProofs.
Open Scope nat_scope.
Local Arguments id_key _ : simpl never.
Local Arguments le_put _ _ : simpl never.

(** ** Vectors and mutexes after a call that returned *)
Definition vmap (s : st) : gmap N fvec := v_vec <$> nodes s.

Section frame.
  Context (P : hparams) (t fuel : nat).

  Definition fr {A} (p : prog st A) : Prop :=
    forall s s' a, exec p s = Some (s', Val a) -> unlocked s -> unlocked s' /\ vmap s' = vmap s.
  Lemma fr_bind {A B} (p : prog st A) (k : A -> prog st B) : fr p -> (forall a, fr (k a)) -> fr (p ≫= k).
  Proof.
    intros Hp Hk s s' b Hx Hu. apply exec_bind_val in Hx as (s1 & a & H1 & H2).
    destruct (Hp _ _ _ H1 Hu) as [Hu1 E1]. destruct (Hk _ _ _ _ H2 Hu1) as [Hu2 E2]. split; [done|congruence].
  Qed.
  Lemma fr_done {A} (r : out A) : fr (Done r).
  Proof. intros s s' a Hx Hu. apply Some_pair_inj in Hx as [<- _]. done. Qed.
  Lemma fr_ret {A} (a : A) : fr (mret a). Proof. apply fr_done. Qed.
  Lemma fr_lift {A} (o : out A) : fr (lift o). Proof. apply fr_done. Qed.
  Lemma fr_read {A} (f : st -> out A) : fr (act (fun s => (s, f s))).
  Proof. intros s s' a Hx Hu. rewrite exec_act in Hx. by apply Some_pair_inj in Hx as [<- _]. Qed.
  Lemma fr_wal_write d : fr (wal_write d).
  Proof.
    unfold wal_write. destruct d as [d| |]; [|apply fr_done..]. intros s s' a Hx Hu. rewrite exec_act in Hx.
    by apply Some_pair_inj in Hx as [<- _].
  Qed.
  Lemma fr_read_conns n l : fr (read_conns P t n l).
  Proof.
    intros s s' a Hx Hu. unfold read_conns in Hx. rewrite exec_act_lock in Hx.
    destruct (nodes s !! n) as [v|]; [|done]. destruct (v_lock v); [done|]. destruct (v_conns v !! l); [|done].
    case_decide; [|done]. by apply Some_pair_inj in Hx as [<- _].
  Qed.
  Lemma fr_visit_conns q ef cs x : fr (visit_conns P q ef cs x).
  Proof.
    revert x. induction cs as [|c cs IH]; intros x; cbn [visit_conns]; [apply fr_ret|].
    case_bool_decide; [apply IH|]. apply fr_bind; [apply fr_lift|intros ?]. apply fr_bind; [apply fr_read|intros ?].
    apply fr_bind; [apply fr_lift|intros ?]. apply fr_bind; [apply fr_lift|intros ?]. apply IH.
  Qed.
  Lemma fr_search_loop q ef l x : fr (search_loop P t fuel q ef l x).
  Proof.
    revert x. induction fuel as [|fu IH]; intros x; cbn [search_loop]; destruct (sl_cands x) eqn:Ec;
      try by (apply fr_ret || apply fr_done).
    rewrite <- Ec. apply fr_bind; [apply fr_lift|intros [c cands]]. apply fr_bind; [apply fr_lift|intros ?].
    destruct (fltb _ _); [apply fr_ret|]. apply fr_bind; [apply fr_read_conns|intros ?].
    apply fr_bind; [apply fr_visit_conns|intros ?]. apply IH.
  Qed.
  Lemma fr_search_layer q eps ef l : fr (search_layer P t fuel q eps ef l).
  Proof.
    unfold search_layer. apply fr_bind; [apply fr_lift|intros ?]. apply fr_bind; [apply fr_lift|intros ?].
    apply fr_bind; [apply fr_search_loop|intros ?]. apply fr_ret.
  Qed.
  Lemma fr_descend q l stop e : fr (descend P t fuel q l stop e).
  Proof.
    revert e. induction l as [|l IH]; intros e; cbn [descend]; [apply fr_ret|]. destruct (stop <? S l); [|apply fr_ret].
    apply fr_bind; [apply fr_search_layer|intros ?]. apply fr_bind; [apply fr_lift|intros ?]. apply IH.
  Qed.
  Lemma fr_same {A} (p : prog st A) : steps (fun a b : st => b = a) p -> fr p.
  Proof. intros Hp s s' a Hx Hu. by apply (steps_eq_exec _ _ _ _ Hp) in Hx as ->. Qed.

  Lemma upd_fr s n v v' : unlocked s -> nodes s !! n = Some v -> v_vec v' = v_vec v -> v_lock v' = None ->
    forall s', nodes s' = <[n := v']> (nodes s) -> unlocked s' /\ vmap s' = vmap s.
  Proof.
    intros Hu Hn Hv Hl s' E. split.
    - intros k w. rewrite E. destruct (decide (k = n)) as [->|Hne]; [rewrite lookup_insert; by intros [= <-]|].
      rewrite lookup_insert_ne by done. apply Hu.
    - unfold vmap. rewrite E, fmap_insert, Hv. apply insert_id. rewrite lookup_fmap, Hn. done.
  Qed.
  Lemma fr_set_conns_unlocked id l ns : fr (set_conns_unlocked id l ns).
  Proof.
    intros s s' a Hx Hu. unfold set_conns_unlocked in Hx. rewrite exec_act in Hx. destruct (nodes s !! id) as [v|] eqn:En; [|done].
    unfold vertex_set_conns in Hx. destruct (v_conns v !! l); [|done]. cbn in Hx. apply Some_pair_inj in Hx as [<- _].
    eapply (upd_fr s id v); [done|done|..|reflexivity]; [done|]. cbn. by eapply Hu.
  Qed.
  Lemma fr_link_one id vec l mc n : fr (link_one P t id vec l mc n).
  Proof.
    intros s s' a Hx Hu. unfold link_one in Hx. apply exec_bind_val in Hx as (s1 & [nv cs] & H1 & Hx).
    unfold lock_conns in H1. rewrite exec_act_lock in H1. destruct (nodes s !! n) as [v|] eqn:En; [|done].
    destruct (v_lock v); [done|]. destruct (v_conns v !! l) as [cs'|] eqn:El; [|done]. apply Some_pair_inj in H1 as [<- H1].
    apply Val_inj in H1. injection H1 as <- <-. set (v' := Vertex (v_conns v) (v_vec v) (Some t)) in *.
    set (s1 := set_nodes (<[n := v']> (nodes s)) s) in *.
    assert (En1 : nodes s1 !! n = Some v') by apply lookup_insert.
    assert (Hupd : forall s2 v2, nodes s2 = <[n := v2]> (nodes s1) -> v_vec v2 = v_vec v -> v_lock v2 = None -> unlocked s2 /\ vmap s2 = vmap s).
    { intros s2 v2 E Hv Hl. eapply (upd_fr s n v v2); [done..|]. rewrite E. cbn. by rewrite insert_insert. }
    destruct (length cs' <? mc).
    - apply exec_bind_val in Hx as (s2 & [] & H2 & Hx). unfold wal_write in H2.
      destruct (enc_add_conn n l id) as [r| |]; [|done..]. rewrite exec_act in H2. apply Some_pair_inj in H2 as [<- _].
      unfold add_conn_unlock in Hx. rewrite exec_act in Hx. change (nodes (wal_append r s1)) with (nodes s1) in Hx. rewrite En1 in Hx.
      unfold vertex_add_conn in Hx. change (v_conns v') with (v_conns v) in Hx. rewrite El in Hx. cbn [or_pan mbind out_bind] in Hx.
      apply Some_pair_inj in Hx as [<- _]. by eapply Hupd.
    - apply exec_bind_val in Hx as (s2 & d & H2 & Hx). rewrite exec_lift in H2. apply Some_pair_inj in H2 as [<- _].
      apply exec_bind_val in Hx as (s2 & es & H2 & Hx). apply (steps_eq_exec _ _ _ _ (steps_eq_conn_elems P _ _)) in H2 as ->.
      apply exec_bind_val in Hx as (s2 & ns & H2 & Hx). apply (steps_eq_exec _ _ _ _ (steps_eq_select P _ _)) in H2 as ->.
      apply exec_bind_val in Hx as (s2 & [] & H2 & Hx). unfold wal_write in H2.
      destruct (enc_set_conns n l ns) as [r| |]; [|done..]. rewrite exec_act in H2. apply Some_pair_inj in H2 as [<- _].
      unfold set_conns_unlock in Hx. rewrite exec_act in Hx. change (nodes (wal_append r s1)) with (nodes s1) in Hx. rewrite En1 in Hx.
      unfold vertex_set_conns in Hx. change (v_conns v') with (v_conns v) in Hx. rewrite El in Hx. cbn [or_pan mbind out_bind] in Hx.
      apply Some_pair_inj in Hx as [<- _]. by eapply Hupd.
  Qed.
  Lemma fr_link_all id vec l mc ns : fr (link_all P t id vec l mc ns).
  Proof. induction ns as [|n ns IH]; cbn [link_all]; [apply fr_ret|]. apply fr_bind; [apply fr_link_one|intros _; exact IH]. Qed.
  Lemma fr_construct id vec l eps : fr (construct P t fuel id vec l eps).
  Proof.
    revert eps. induction l as [|l IH]; intros eps; cbn [construct].
    all: apply fr_bind; [apply fr_search_layer|intros near].
    all: apply fr_bind; [apply fr_same, steps_eq_select|intros ns].
    all: apply fr_bind; [apply fr_wal_write|intros _].
    all: apply fr_bind; [apply fr_set_conns_unlocked|intros _].
    all: apply fr_bind; [apply fr_link_all|intros _].
    - apply fr_ret.
    - apply IH.
  Qed.
  Lemma fr_raise_entry id level cur : fr (raise_entry id level cur).
  Proof.
    unfold raise_entry. destruct (enc_set_entry id level) as [r| |]; [|apply fr_done..]. intros s s' a Hx Hu. rewrite exec_act in Hx.
    destruct (cur <? level); by apply Some_pair_inj in Hx as [<- _].
  Qed.
  Lemma add_fr s s' id level vec : unlocked s -> nodes s' = <[id := Vertex (init_conns level) vec None]> (nodes s) ->
    unlocked s' /\ vmap s' = <[id := vec]> (vmap s).
  Proof.
    intros Hu E. split.
    - intros k w. rewrite E. destruct (decide (k = id)) as [->|Hne]; [rewrite lookup_insert; by intros [= <-]|].
      rewrite lookup_insert_ne by done. apply Hu.
    - unfold vmap. by rewrite E, fmap_insert.
  Qed.
  Lemma insert_frame level vec id s s' a :
    exec (hnsw_insert P t fuel level vec id) s = Some (s', Val a) -> unlocked s ->
    unlocked s' /\ vmap s' = <[id := vec]> (vmap s).
  Proof.
    intros Hx Hu. unfold hnsw_insert in Hx. apply exec_bind_val in Hx as (s1 & first & H1 & Hx).
    unfold once_insert in H1. destruct (enc_set_entry id 0) as [r1| |], (enc_add_vertex id 0) as [r2| |]; try done.
    rewrite exec_act in H1. cbn zeta in H1.
    assert (Hrest : first = false -> nodes s1 = nodes s -> unlocked s' /\ vmap s' = <[id := vec]> (vmap s)).
    { intros -> En. clear H1. assert (Hu1 : unlocked s1) by (unfold unlocked; by rewrite En).
      assert (Ev : vmap s1 = vmap s) by (unfold vmap; by rewrite En).
      apply exec_bind_val in Hx as (s2 & [] & H2 & Hx). destruct (fr_wal_write _ _ _ _ H2 Hu1) as [Hu2 E2].
      apply exec_bind_val in Hx as (s3 & [] & H3 & Hx). unfold add_node in H3. rewrite exec_act in H3. apply Some_pair_inj in H3 as [E3 _].
      destruct (add_fr s2 s3 id level vec Hu2) as [Hu3 Ev3]; [by rewrite <- E3|]. clear E3.
      apply exec_bind_val in Hx as (s4 & [[epid epv] cur] & H4 & Hx). destruct (fr_read _ _ _ _ H4 Hu3) as [Hu4 E4].
      apply exec_bind_val in Hx as (s5 & d & H5 & Hx). rewrite exec_lift in H5. apply Some_pair_inj in H5 as [<- _].
      apply exec_bind_val in Hx as (s6 & e & H6 & Hx). destruct (fr_descend _ _ _ _ _ _ _ H6 Hu4) as [Hu6 E6].
      apply exec_bind_val in Hx as (s7 & [] & H7 & Hx). destruct (fr_construct _ _ _ _ _ _ _ H7 Hu6) as [Hu7 E7].
      destruct (fr_raise_entry _ _ _ _ _ _ Hx Hu7) as [Hu8 E8]. split; [done|]. congruence. }
    destruct (once s).
    { apply Some_pair_inj in H1 as [<- H1]. apply Val_inj in H1. by apply Hrest. }
    destruct (bool_decide _).
    2:{ apply Some_pair_inj in H1 as [<- H1]. apply Val_inj in H1. by apply Hrest. }
    apply Some_pair_inj in H1 as [E1 H1]. apply Val_inj in H1 as <-. cbn in Hx. apply Some_pair_inj in Hx as [<- _].
    eapply (add_fr s); [done|]. by rewrite <- E1.
  Qed.

  (** A search that returns has changed nothing. *)
  Definition pure {A} (p : prog st A) : Prop := forall s s' a, exec p s = Some (s', Val a) -> s' = s.
  Lemma pure_bind {A B} (p : prog st A) (k : A -> prog st B) : pure p -> (forall a, pure (k a)) -> pure (p ≫= k).
  Proof.
    intros Hp Hk s s' b Hx. apply exec_bind_val in Hx as (s1 & a & H1 & H2). apply Hp in H1 as ->. by apply Hk in H2.
  Qed.
  Lemma pure_done {A} (r : out A) : pure (Done r).
  Proof. intros s s' a Hx. by apply Some_pair_inj in Hx as [<- _]. Qed.
  Lemma pure_read {A} (f : st -> out A) : pure (act (fun s => (s, f s))).
  Proof. intros s s' a Hx. rewrite exec_act in Hx. by apply Some_pair_inj in Hx as [<- _]. Qed.
  Lemma pure_read_conns n l : pure (read_conns P t n l).
  Proof.
    intros s s' a Hx. unfold read_conns in Hx. rewrite exec_act_lock in Hx.
    destruct (nodes s !! n) as [v|]; [|done]. destruct (v_lock v); [done|]. destruct (v_conns v !! l); [|done].
    case_decide; [|done]. by apply Some_pair_inj in Hx as [<- _].
  Qed.
  Lemma pure_visit_conns q ef cs x : pure (visit_conns P q ef cs x).
  Proof.
    revert x. induction cs as [|c cs IH]; intros x; cbn [visit_conns]; [apply pure_done|].
    case_bool_decide; [apply IH|]. apply pure_bind; [apply pure_done|intros ?]. apply pure_bind; [apply pure_read|intros ?].
    apply pure_bind; [apply pure_done|intros ?]. apply pure_bind; [apply pure_done|intros ?]. apply IH.
  Qed.
  Lemma pure_search_loop q ef l x : pure (search_loop P t fuel q ef l x).
  Proof.
    revert x. induction fuel as [|fu IH]; intros x; cbn [search_loop]; destruct (sl_cands x) eqn:Ec;
      try by apply pure_done.
    rewrite <- Ec. apply pure_bind; [apply pure_done|intros [c cands]]. apply pure_bind; [apply pure_done|intros ?].
    destruct (fltb _ _); [apply pure_done|]. apply pure_bind; [apply pure_read_conns|intros ?].
    apply pure_bind; [apply pure_visit_conns|intros ?]. apply IH.
  Qed.
  Lemma pure_search_layer q eps ef l : pure (search_layer P t fuel q eps ef l).
  Proof.
    unfold search_layer. apply pure_bind; [apply pure_done|intros ?]. apply pure_bind; [apply pure_done|intros ?].
    apply pure_bind; [apply pure_search_loop|intros ?]. apply pure_done.
  Qed.
  Lemma pure_descend q l stop e : pure (descend P t fuel q l stop e).
  Proof.
    revert e. induction l as [|l IH]; intros e; cbn [descend]; [apply pure_done|]. destruct (stop <? S l); [|apply pure_done].
    apply pure_bind; [apply pure_search_layer|intros ?]. apply pure_bind; [apply pure_done|intros ?]. apply IH.
  Qed.
  Lemma pure_search q k : pure (hnsw_search P t fuel q k).
  Proof.
    unfold hnsw_search. destruct (k <? 0)%Z; [apply pure_done|]. apply pure_bind; [apply pure_read|intros [[epid epv] cur]].
    apply pure_bind; [apply pure_done|intros ?]. apply pure_bind; [apply pure_descend|intros ?].
    apply pure_bind; [apply pure_search_layer|intros ?]. apply pure_bind; [apply pure_read|intros ?]. apply pure_done.
  Qed.
End frame.

Lemma pure_semantic_search C tid o k : pure (semantic_search C tid o k).
Proof.
  unfold semantic_search. apply pure_bind; [apply pure_read|intros _]. apply pure_bind; [apply pure_done|].
  intros [|o' [|? ?]]; [apply pure_done| |apply pure_done]. apply pure_bind; [apply pure_search|intros es].
  apply pure_bind; [apply pure_read|intros os]. apply pure_bind; [apply pure_done|intros hs]. apply pure_done.
Qed.

(** ** Replaying a log, then loading the vectors *)
Definition plain (s : st) : Prop := forall n v, nodes s !! n = Some v -> v_vec v = [] /\ v_lock v = None.
Lemma plain_upd s n v : plain s -> v_vec v = [] -> v_lock v = None -> plain (set_nodes (<[n := v]> (nodes s)) s).
Proof.
  intros Hp Hv Hl k w. cbn. destruct (decide (k = n)) as [->|Hne]; [rewrite lookup_insert; by intros [= <-]|].
  rewrite lookup_insert_ne by done. apply Hp.
Qed.
Lemma wop_plain o s s' : plain s -> wop_apply o s = Val s' -> plain s'.
Proof.
  intros Hp. destruct o as [id l|id l|id l ns|id l n|id]; cbn [wop_apply].
  - intros <-%Val_inj. by apply plain_upd.
  - by intros <-%Val_inj.
  - destruct (nodes s !! id) as [v|] eqn:En; [|done]. case_decide; [|done]. intros <-%Val_inj.
    destruct (Hp _ _ En). by apply plain_upd.
  - destruct (nodes s !! id) as [v|] eqn:En; [|done]. case_decide; [|done]. intros <-%Val_inj.
    destruct (Hp _ _ En). by apply plain_upd.
  - by intros <-%Val_inj.
Qed.
Lemma wops_plain os s s' : plain s -> wops_apply os s = Val s' -> plain s'.
Proof.
  revert s. induction os as [|o os IH]; intros s Hp; cbn [wops_apply]; [by intros <-%Val_inj|].
  destruct (wop_apply o s) as [s1| |] eqn:E; cbn [mbind out_bind]; [|done..]. apply IH. by eapply wop_plain.
Qed.

Definition shape (v : vertex) : list (list N) * option nat := (v_conns v, v_lock v).
Lemma populate_target m kvs s (T : gmap N vertex) :
  (forall id, shape <$> nodes s !! id = shape <$> T !! id) ->
  (forall k x, (k, x) ∈ kvs -> exists id v, le_get 8 k = Some id /\ T !! id = Some v /\ get_vector m id = Val (Some (v_vec v))) ->
  (forall id v v1, T !! id = Some v -> nodes s !! id = Some v1 -> v_vec v1 = v_vec v \/ exists k x, (k, x) ∈ kvs /\ le_get 8 k = Some id) ->
  exists s', CollModel.populate m kvs s = Val s' /\ nodes s' = T /\ ep s' = ep s /\ maxl s' = maxl s /\ deleted s' = deleted s /\ once s' = once s.
Proof.
  revert s. induction kvs as [|[k x] kvs IH]; intros s Hsh Hkv Hdone; cbn [CollModel.populate].
  - exists s. split_and!; try done. apply map_eq. intros id. specialize (Hsh id). destruct (nodes s !! id) as [v1|] eqn:E1, (T !! id) as [v|] eqn:E2; try done.
    destruct (Hdone id v v1 E2 E1) as [Hv|(k & x & Hin & _)]; [|by apply elem_of_nil in Hin].
    cbn in Hsh. destruct v1, v; unfold shape in Hsh; cbn in *. congruence.
  - destruct (Hkv k x) as (id & v & Ek & ET & Eg); [by left|]. rewrite Ek. cbn [or_pan mbind out_bind]. rewrite Eg. cbn [mbind out_bind].
    pose proof (Hsh id) as Hid. rewrite ET in Hid. destruct (nodes s !! id) as [v1|] eqn:E1; [|done]. cbn in Hid.
    set (s1 := set_nodes _ s). destruct (IH s1) as (s' & Hp & E2 & E3 & E4 & E5 & E6).
    + intros i. cbn. destruct (decide (i = id)) as [->|Hne]; [rewrite lookup_insert, ET; cbn; exact Hid|].
      rewrite lookup_insert_ne by done. apply Hsh.
    + intros k' x' Hin. apply (Hkv k' x'). by right.
    + intros i w w1 Hw Hw1. cbn in Hw1. destruct (decide (i = id)) as [->|Hne].
      * rewrite lookup_insert in Hw1. injection Hw1 as <-. cbn. left. congruence.
      * rewrite lookup_insert_ne in Hw1 by done. destruct (Hdone i w w1 Hw Hw1) as [?|(k' & x' & Hin & Hk')]; [by left|].
        apply elem_of_cons in Hin as [Heq|Hin]; [|by right; eauto]. injection Heq as -> ->. congruence.
    + exists s'. by split_and!.
Qed.

(** The bytes of a float vector fit. *)
Definition floats_ok (v : fvec) : Prop := Forall (fun f => (f < 2 ^ 32)%N) v.

Record restorable (s : st) : Prop := MkRestorable {
  rs_log : exists os, Forall wop_ok os /\ Forall2 (fun o r => enc_wop o = Val r) os (wlog s) /\ effect os empty_st s;
  rs_un : unlocked s;
  rs_vec : forall id v, nodes s !! id = Some v -> (id < 2 ^ 64)%N /\
    exists b, vecs s !! id_key id = Some b /\ ser_vec (v_vec v) = Val b /\ vec_ok (v_vec v);
  rs_key : forall k, is_Some (vecs s !! k) -> exists id, k = id_key id /\ (id < 2 ^ 64)%N /\ is_Some (nodes s !! id)
}.

Theorem reopen_restores s c :
  restorable s -> open_counter (cfile s) = Val c ->
  exists s', reopen (disk_of s) = Val s' /\ nodes s' = nodes s /\ ep s' = ep s /\ maxl s' = maxl s /\ deleted s' = deleted s /\ once s' = false.
Proof.
  intros [(os & Hok & Henc & Heff) Hun Hvec Hkey] Hc. unfold reopen. cbn [disk_of d_cfile d_log d_objs d_vecs]. rewrite Hc. cbn [mbind out_bind].
  match goal with |- context [replay _ ?x] => set (s0 := x) end.
  rewrite (replay_wops os (wlog s) s0 Hok Henc). destruct (Heff s0) as (b & Hb & Hs); [done|]. rewrite Hb. cbn [mbind out_bind].
  assert (Hpl : plain b) by (by eapply wops_plain; [|exact Hb]).
  assert (Ho : once b = false).
  { assert (H : forall os s b, wops_apply os s = Val b -> once b = once s); [|by rewrite (H _ _ _ Hb)]. clear.
    induction os as [|o os IH]; intros s b; cbn [wops_apply]; [by intros <-%Val_inj|].
    destruct (wop_apply o s) as [s1| |] eqn:E; cbn [mbind out_bind]; [|done..]. intros H. rewrite (IH _ _ H).
    destruct o; cbn [wop_apply] in E; try (by apply Val_inj in E as <-); destruct (nodes s !! id); [|done| |done]; case_decide; try done; by apply Val_inj in E as <-. }
  destruct Hs as [S1 S2 S3 S4].
  destruct (populate_target (vecs s) (map_to_list (vecs s)) b (nodes s)) as (s' & Hp & E1 & E2 & E3 & E4 & E5).
  - intros id. pose proof (f_equal (lookup id) S4) as Hid. rewrite !conns_lookup in Hid.
    destruct (nodes b !! id) as [w|] eqn:Ew, (nodes s !! id) as [v|] eqn:Ev; try done. cbn in *.
    destruct (Hpl _ _ Ew) as [_ Hl]. unfold shape. rewrite Hl, (Hun _ _ Ev). congruence.
  - intros k x Hin. apply elem_of_map_to_list in Hin. destruct (Hkey k) as (id & -> & Hid & v & Hv); [by eexists|].
    exists id, v. split; [|split; [done|]].
    + unfold id_key. apply le_get_put. by rewrite pow256_8.
    + destruct (Hvec _ _ Hv) as (_ & b' & Hb' & Hser & Hf & Hl). unfold get_vector. rewrite Hb'.
      pose proof (de_ser_vec (v_vec v) [] b' (conj Hf Hl) Hser) as Ed. rewrite app_nil_r in Ed. by rewrite Ed.
  - intros id v v1 Hv Hv1. right. destruct (Hvec _ _ Hv) as (Hid & b' & Hb' & _). exists (id_key id), b'.
    split; [by apply elem_of_map_to_list|]. unfold id_key. apply le_get_put. by rewrite pow256_8.
  - exists s'. split_and!; try done; congruence.
Qed.

(** ** The invariant of a collection used by one call at a time *)
Section quiet.
  Context (C : cparams).
  Notation P := (cp_h C).
  Context (Hmax : (cp_maxval C < 2 ^ 32)%N).
  Context (Hdeg : (N.of_nat (Nat.max (hp_m P) (2 * hp_mMax P)) < 2 ^ 32)%N).

  Record QInv (s : st) : Prop := MkQInv {
    q_log : exists os, Forall wop_ok os /\ Forall2 (fun o r => enc_wop o = Val r) os (log_view s) /\ effect os empty_st s;
    q_un : unlocked s;
    q_J : J P id_ok s;
    q_num : numbered s;
    q_vec : forall id v, nodes s !! id = Some v -> (id < 2 ^ 64)%N /\
      exists b, vecs s !! id_key id = Some b /\ ser_vec (v_vec v) = Val b /\ vec_ok (v_vec v);
    q_key : forall k, is_Some (vecs s !! k) -> exists id, k = id_key id /\ (id < 2 ^ 64)%N /\ is_Some (nodes s !! id)
  }.

  Lemma QInv_empty : QInv empty_st.
  Proof using.
    split; try done.
    - exists []. split_and!; [constructor|constructor|by apply effect_nil].
    - intros k [x Hx]. done.
  Qed.
  Lemma QInv_restorable s : QInv s -> batch s = [] -> restorable s.
  Proof using.
    intros [(os & H1 & H2 & H3) Hu HJ Hn Hv Hk] Hb. split; try done. exists os. unfold log_view in H2. rewrite Hb, app_nil_r in H2. done.
  Qed.

  (** Only what the invariant looks at. *)
  Lemma QInv_same s s' :
    nodes s' = nodes s -> ep s' = ep s -> maxl s' = maxl s -> deleted s' = deleted s ->
    log_view s' = log_view s -> vecs s' = vecs s -> numbered s' -> QInv s -> QInv s'.
  Proof using.
    intros E1 E2 E3 E4 E5 E6 Hn [(os & H1 & H2 & H3) Hu HJ _ Hv Hk]. split.
    - exists os. rewrite E5. split_and!; [done|done|]. rewrite <- (app_nil_r os). eapply effect_app; [exact H3|].
      apply effect_nil. split; try done. unfold conns_of. by rewrite E1.
    - unfold unlocked. by rewrite E1.
    - unfold J. by rewrite E1.
    - done.
    - intros id v. rewrite E1, E6. apply Hv.
    - intros k. rewrite E6, E1. apply Hk.
  Qed.

  Lemma okop_ok level o : (N.of_nat level < 2 ^ 32)%N -> okop P id_ok level o -> wop_ok o.
  Proof using Hmax Hdeg.
    intros Hl. destruct o as [id l|id l|id l ns|id l n|id]; cbn [okop wop_ok]; unfold level_ok.
    - intros [? ?]. split; [done|lia].
    - intros [? ?]. split; [done|lia].
    - intros (? & ? & ? & Hb). split_and!; [done|lia|done|]. unfold bnd, mMax0 in Hb. destruct l; lia.
    - intros (? & ? & ?). split_and!; [done|lia|done].
    - done.
  Qed.

  Lemma logged_log level s s' :
    (N.of_nat level < 2 ^ 32)%N -> wlog s' = wlog s -> logged P id_ok level s s' ->
    (exists os, Forall wop_ok os /\ Forall2 (fun o r => enc_wop o = Val r) os (log_view s) /\ effect os empty_st s) ->
    exists os, Forall wop_ok os /\ Forall2 (fun o r => enc_wop o = Val r) os (log_view s') /\ effect os empty_st s'.
  Proof using Hmax Hdeg.
    intros Hl Ew (os & rs & O1 & O2 & O3 & O4) (os0 & H1 & H2 & H3). exists (os0 ++ os). split_and!.
    - apply Forall_app. split; [done|]. eapply Forall_impl; [exact O1|]. intros o. by apply okop_ok.
    - unfold log_view. rewrite Ew, O3, app_assoc. by apply Forall2_app.
    - by eapply effect_app.
  Qed.

  (** insert of a stored vector *)
  Lemma Q_hnsw_insert t fuel level vec id s s' a b :
    QInv s -> (N.of_nat level < 2 ^ 32)%N -> (id < 2 ^ 64)%N -> vec_ok vec -> ser_vec vec = Val b ->
    exec (hnsw_insert P t fuel level vec id) (set_vecs (<[id_key id := b]> (vecs s)) s) = Some (s', Val a) -> QInv s'.
  Proof using Hmax Hdeg.
    intros HQ Hl Hid Hvec Hser Hx. set (s0 := set_vecs _ s) in *.
    destruct (insert_frame _ _ _ _ _ _ _ _ _ Hx (q_un _ HQ)) as [Hu Hvm].
    destruct (tr_hnsw_insert P id_ok level t fuel level vec id Hid ltac:(lia) s0 s' (Val a) (q_J _ HQ) Hx) as [HJ Hlg].
    destruct (Hlg a eq_refl) as [Hlog _].
    pose proof (steps_exec keep_store keep_store_refl keep_store_trans _ _ _ _ (insert_keep_store P t fuel level vec id) Hx) as (K1&K2&K3&K4&K5&K6&K7&K8).
    pose proof (steps_exec wal_rel wal_rel_refl wal_rel_trans _ _ _ _ (wr_hnsw_insert C t fuel level vec id) Hx) as (W1 & _ & _).
    assert (Hlook : forall k v, nodes s' !! k = Some v -> (k = id /\ v_vec v = vec) \/ (k <> id /\ exists v0, nodes s !! k = Some v0 /\ v_vec v0 = v_vec v)).
    { intros k v Hk. pose proof (f_equal (lookup k) Hvm) as Hkk. unfold vmap in Hkk. rewrite lookup_fmap, Hk in Hkk. cbn in Hkk.
      destruct (decide (k = id)) as [->|Hne]; [left; rewrite lookup_insert in Hkk; split; congruence|right].
      rewrite lookup_insert_ne, lookup_fmap in Hkk by done. destruct (nodes s !! k) as [v0|]; [|done]. split; [done|].
      exists v0. cbn in Hkk. split; [done|congruence]. }
    split; try done.
    - eapply (logged_log level s0); [done|exact K2|done|]. destruct (q_log _ HQ) as (os & H1 & H2 & H3). exists os. split_and!; [done|done|].
      rewrite <- (app_nil_r os). eapply effect_app; [exact H3|]. by apply effect_nil.
    - apply W1. apply (q_num _ HQ).
    - intros k v Hk. rewrite K6. cbn. destruct (Hlook k v Hk) as [[-> Hv]|(Hne & v0 & Hv0 & Ev)].
      + split; [done|]. exists b. rewrite lookup_insert, Hv. done.
      + destruct (q_vec _ HQ _ _ Hv0) as (Hk64 & b0 & Hb0 & Hs0 & Hok0). split; [done|]. exists b0. rewrite <- Ev.
        rewrite lookup_insert_ne by (intros Heq; apply id_key_inj in Heq; done). done.
    - intros k Hk. rewrite K6 in Hk. cbn in Hk.
      assert (Hdom : forall i, i = id \/ is_Some (nodes s !! i) -> is_Some (nodes s' !! i)).
      { intros i Hi. pose proof (f_equal (lookup i) Hvm) as Hii. unfold vmap in Hii. rewrite lookup_fmap in Hii.
        destruct (nodes s' !! i); [by eexists|]. cbn in Hii. destruct (decide (i = id)) as [->|Hne]; [by rewrite lookup_insert in Hii|].
        rewrite lookup_insert_ne, lookup_fmap in Hii by done. destruct Hi as [?|[v0 Hv0]]; [done|]. change (nodes s0) with (nodes s) in Hii. by rewrite Hv0 in Hii. }
      destruct (decide (k = id_key id)) as [->|Hne].
      + exists id. split_and!; [done..|]. apply Hdom. by left.
      + rewrite lookup_insert_ne in Hk by done. destruct (q_key _ HQ k Hk) as (i & -> & Hi & Hn). exists i. split_and!; [done..|]. apply Hdom. by right.
  Qed.

  Lemma Q_flush s s' r :
    QInv s -> (N.of_nat (length (log_view s)) + 1 < 2 ^ 64)%N -> exec (flush true) s = Some (s', r) ->
    r = Val tt /\ QInv s' /\ batch s' = [] /\ log_view s' = log_view s.
  Proof using.
    intros HQ Hb Hx. unfold flush in Hx. rewrite exec_act in Hx. apply (inj Some) in Hx.
    pose proof (wal_rel_flush true s) as (Hn & _). rewrite Hx in Hn. cbn [fst] in Hn. specialize (Hn (q_num _ HQ)).
    unfold wal_flush in Hx. destruct (batch s) as [|x b] eqn:Eb.
    { apply pair_inj in Hx as [<- <-]. done. }
    rewrite <- Eb, (numbered_in_order s (q_num _ HQ) Hb) in Hx. apply pair_inj in Hx as [<- <-].
    assert (log_view (set_wal [] (wseq s) (wlog s ++ (snd <$> batch s)) s) = log_view s) as El.
    { unfold log_view. cbn. by rewrite app_nil_r. }
    split_and!; try done. by eapply QInv_same; [..|exact HQ].
  Qed.

  (** What one insert is asked to store. *)
  Definition insert_ok (level : nat) (o : object) : Prop :=
    (N.of_nat level < 2 ^ 32)%N /\ forall os o', embed_objects C [o] = Val os -> o' ∈ os -> floats_ok (vec_or_nil o').

  Lemma Q_insert level o s s' r :
    QInv s -> batch s = [] -> (cnt s < 2 ^ 64)%N -> insert_ok level o ->
    (N.of_nat (length (log_view s')) + 1 < 2 ^ 64)%N ->
    exec (CollModel.insert C 0 true level o) s = Some (s', r) -> (forall p, r <> Pan p) ->
    QInv s' /\ batch s' = [].
  Proof using Hmax Hdeg.
    intros HQ Hb Hc [Hl Hfl] Hlen Hx Hnp. unfold CollModel.insert in Hx.
    assert (Hdone : s' = s -> QInv s' /\ batch s' = []) by (by intros ->).
    rewrite exec_bind in Hx. unfold check_open in Hx. rewrite exec_act in Hx. destruct (closed s) eqn:Ecl.
    { apply Some_pair_inj in Hx as [<- _]. by apply Hdone. }
    rewrite exec_bind, exec_lift in Hx. destruct (validate_objects C 0 [o]) as [[]|e|z].
    2,3: apply Some_pair_inj in Hx as [<- _]; by apply Hdone.
    rewrite exec_bind, exec_lift in Hx. destruct (embed_objects C [o]) as [os|e|z] eqn:Ee.
    2,3: apply Some_pair_inj in Hx as [<- _]; by apply Hdone.
    destruct os as [|o' [|? ?]]; try (apply Some_pair_inj in Hx as [<- _]; by apply Hdone).
    specialize (Hfl _ o' eq_refl ltac:(by left)).
    rewrite exec_bind in Hx. unfold insert_one at 1 in Hx. rewrite exec_bind in Hx. unfold fetch_and_inc in Hx. rewrite exec_act, Ecl in Hx.
    set (s1 := set_cnt _ _ s) in *. rewrite exec_bind in Hx. unfold put_object in Hx. rewrite exec_bind, exec_lift in Hx.
    assert (HQ1 : QInv s1) by (by eapply QInv_same; [..|exact HQ]; try done; apply (q_num _ HQ)).
    cbn [o_props o_id] in Hx.
    destruct (ser_props (cp_json C) (o_props o')) as [ob|e|z].
    2,3: apply Some_pair_inj in Hx as [<- _]; by split.
    rewrite exec_bind, exec_lift in Hx. change (vec_or_nil (Object (cnt s) (o_props o') (o_vec o'))) with (vec_or_nil o') in Hx.
    destruct (ser_vec (vec_or_nil o')) as [vb|e|z] eqn:Es.
    2,3: apply Some_pair_inj in Hx as [<- _]; by split.
    rewrite exec_bind, exec_act in Hx. unfold bc_put in Hx at 1. destruct (cp_maxval C <? N.of_nat (length ob))%N.
    { apply Some_pair_inj in Hx as [<- _]; by split. }
    change (closed s1) with (closed s) in Hx. rewrite Ecl in Hx.
    set (s2 := set_objs _ s1) in *. assert (HQ2 : QInv s2) by (by eapply QInv_same; [..|exact HQ1]; try done; apply (q_num _ HQ1)).
    rewrite exec_act in Hx. unfold bc_put in Hx. destruct (cp_maxval C <? N.of_nat (length vb))%N eqn:Em.
    { apply Some_pair_inj in Hx as [<- _]; by split. }
    change (closed s2) with (closed s) in Hx. rewrite Ecl in Hx.
    apply N.ltb_ge in Em. rewrite exec_bind in Hx. set (s3 := set_vecs _ s2) in *.
    destruct (exec (hnsw_insert P 0 (cp_fuel C) level (vec_or_nil o') (cnt s)) s3) as [[s4 r4]|] eqn:Ei; [|done].
    assert (Hok4 : exists a, r4 = Val a).
    { pose proof (no_err_exec _ _ _ _ (ne_insert P 0 (cp_fuel C) level (vec_or_nil o') (cnt s)) Ei) as Hne.
      destruct r4 as [a|e|z]; [by eexists|by destruct (Hne e)|]. apply Some_pair_inj in Hx as [_ <-]. by destruct (Hnp z). }
    destruct Hok4 as [a ->]. cbn [mret] in Hx.
    assert (HQ4 : QInv s4).
    { eapply (Q_hnsw_insert 0 (cp_fuel C) level (vec_or_nil o') (cnt s) s2 s4 a vb); try done. split; [done|].
      rewrite ser_vec_eq in Es. apply Val_inj in Es. apply (f_equal length) in Es. rewrite app_length, le_put_length, le_floats_length in Es.
      unfold fvec, f32 in *. lia. }
    change (exec (mret (Object (cnt s) (o_props o') (o_vec o'))) s4) with (Some (s4, Val (Object (cnt s) (o_props o') (o_vec o')))) in Hx.
    cbv beta iota in Hx. rewrite exec_bind in Hx.
    destruct (exec (flush true) s4) as [[s5 r5]|] eqn:Ef; [|done].
    assert (Hl5 : log_view s5 = log_view s4).
    { unfold flush in Ef. rewrite exec_act in Ef. apply (inj Some) in Ef. unfold wal_flush in Ef. destruct (batch s4) as [|x b] eqn:Eb4; [by apply pair_inj in Ef as [<- _]|].
      rewrite <- Eb4 in Ef. destruct (in_order _ _); apply pair_inj in Ef as [<- _]; [|done]. unfold log_view. cbn. by rewrite app_nil_r. }
    assert (Hs5 : s' = s5).
    { destruct r5; apply Some_pair_inj in Hx as [<- _]; done. }
    subst s5. destruct (Q_flush s4 s' r5 HQ4) as (_ & HQ5 & Hb5 & _); [congruence|done|]. done.
  Qed.

  Lemma Q_delete f id s s' r :
    QInv s -> batch s = [] -> (id < 2 ^ 64)%N -> (N.of_nat (length (log_view s')) + 1 < 2 ^ 64)%N ->
    exec (delete_found f true id) s = Some (s', r) -> QInv s' /\ batch s' = [].
  Proof using Hmax Hdeg.
    intros HQ Hb Hid Hlen Hx. unfold delete_found in Hx. rewrite exec_bind, exec_act in Hx.
    destruct f as [[o|]|e|z].
    2-4: apply Some_pair_inj in Hx as [<- _]; done.
    rewrite exec_bind in Hx. unfold delete_object in Hx. rewrite exec_act in Hx. destruct (closed s).
    { apply Some_pair_inj in Hx as [<- _]; done. }
    set (s1 := set_objs _ s) in *. assert (HQ1 : QInv s1) by (by eapply QInv_same; [..|exact HQ]; try done; apply (q_num _ HQ)).
    rewrite exec_bind in Hx. destruct (exec (hnsw_delete id) s1) as [[s2 r2]|] eqn:Ed; [|done].
    destruct (tr_hnsw_delete P id_ok 0 id Hid s1 s2 r2 (q_J _ HQ1) Ed) as [HJ Hlg].
    unfold hnsw_delete in Ed. rewrite enc_delete_eq, exec_act in Ed. apply Some_pair_inj in Ed as [Ed Er]. subst r2. cbv beta iota in Hx.
    destruct (Hlg tt eq_refl) as [Hlog _]. clear Hlg.
    assert (HQ2 : QInv s2).
    { split; try done.
      - eapply (logged_log 0 s1); [done|by rewrite <- Ed|done|]. apply (q_log _ HQ1).
      - rewrite <- Ed. apply (q_un _ HQ1).
      - match type of Ed with set_deleted _ (wal_append ?d _) = _ => pose proof (wal_rel_append d s1) as (Hn & _) end.
        rewrite <- Ed. by apply Hn, (q_num _ HQ1).
      - rewrite <- Ed. apply (q_vec _ HQ1).
      - rewrite <- Ed. apply (q_key _ HQ1). }
    assert (Hl : log_view s' = log_view s2).
    { unfold flush in Hx. rewrite exec_act in Hx. apply (inj Some) in Hx. unfold wal_flush in Hx. destruct (batch s2) as [|x b] eqn:Eb4; [by apply pair_inj in Hx as [<- _]|].
      rewrite <- Eb4 in Hx. destruct (in_order _ _); apply pair_inj in Hx as [<- _]; [|done]. unfold log_view. cbn. by rewrite app_nil_r. }
    destruct (Q_flush s2 s' r HQ2) as (_ & HQ5 & Hb5 & _); [congruence|done|]. done.
  Qed.

  (** Calls made one after another, on a disk that accepts every write, none of
      which panicked; and restarts. *)
  Definition quiet (e : event) : Prop :=
    match e with
    | EvCall (CInsert io level o) (RIns r) => io = true /\ insert_ok level o /\ (forall p, r <> Pan p)
    | EvCall (CDelete io id) _ => io = true /\ (id < 2 ^ 64)%N
    | EvCall (CSearch _ _) (RSearch r) => forall p, r <> Pan p
    | EvCall (CGet _) _ | EvCall CSize _ | EvCall (CUpdate _) _ | EvCall CClose _ => True
    | EvRestart => True
    | _ => False
    end.

  Lemma Q_restart s s' :
    SInv s -> QInv s -> batch s = [] -> reopen (disk_of s) = Val s' ->
    QInv s' /\ batch s' = [] /\ nodes s' = nodes s /\ ep s' = ep s /\ maxl s' = maxl s /\ deleted s' = deleted s /\ log_view s' = log_view s.
  Proof using.
    intros HI HQ Hb Hr. destruct (reopen_restores s _ (QInv_restorable _ HQ Hb) (si_file _ HI)) as (s2 & Hr2 & E1 & E2 & E3 & E4 & E5).
    rewrite Hr in Hr2. apply Val_inj in Hr2 as <-. destruct (reopen_store _ _ Hr) as (R1&R2&R3&R4&R5&R6&R7&R8&R9). cbn in *.
    assert (log_view s' = log_view s) as El by (unfold log_view; by rewrite R7, R8, Hb).
    split_and!; try done. eapply QInv_same; [..|exact HQ]; try done. by eapply reopen_numbered.
  Qed.

  Lemma Q_step s e s' :
    SInv s -> QInv s -> batch s = [] -> (cnt s < 2 ^ 64)%N -> quiet e ->
    (N.of_nat (length (log_view s')) + 1 < 2 ^ 64)%N -> ev_step C s e s' -> QInv s' /\ batch s' = [].
  Proof using Hmax Hdeg.
    intros HI HQ Hb Hc He Hl Hs. inversion Hs as [c s1 r Hr|s1 Hr|c n s1 s2 Hcut Hr]; subst; [| |done].
    2:{ destruct (Q_restart _ _ HI HQ Hb Hr) as (? & ? & _). done. }
    inversion Hr as [io level o s1 r1 Hx|io ol r1 Hp Hn|io ol os s1 r1 rs Hp Hbr|io ol r1 Hp Hn|io ol os s1 r1 rs Hp Hbr|io id f s1 r1 Hlk Hx|ids s1 r1 Hx|o k s1 r1 Hx|s1 r1 Hx|o s1 r1 Hx|s1 r1 Hx]; subst; try done.
    - destruct He as (-> & Hi & Hnp). by apply (Q_insert level o s s' r1).
    - destruct He as (-> & Hid). by apply (Q_delete f id s s' r1).
    - unfold CollModel.get in Hx. rewrite exec_act in Hx. by apply Some_pair_inj in Hx as [<- _].
    - cbn in He. assert (s' = s); [|by subst].
      destruct r1 as [a|e|p]; [by apply (pure_semantic_search _ _ _ _ _ _ _ Hx)| |by destruct (He p)].
      unfold semantic_search, check_open in Hx. rewrite exec_bind, exec_act in Hx. destruct (closed s) eqn:Ecl; [by apply Some_pair_inj in Hx as [<- _]|].
      rewrite exec_bind, exec_lift in Hx. destruct (embed_objects C [o]) as [os|e1|z]; [|by apply Some_pair_inj in Hx as [<- _]..].
      destruct os as [|o' [|? ?]]; [done| |done]. rewrite exec_bind in Hx.
      destruct (exec (hnsw_search P 0 (cp_fuel C) (vec_or_nil o') k) s) as [[s1 r1]|] eqn:Eh; [|done].
      pose proof (no_err_exec _ _ _ _ (ne_search P 0 (cp_fuel C) (vec_or_nil o') k) Eh) as Hne.
      destruct r1 as [es|e1|z]; [|by destruct (Hne e1)|done]. apply pure_search in Eh as ->.
      rewrite exec_bind, exec_act in Hx. destruct (get_objects _ _ _) as [objs0|e1|z]; [|by apply Some_pair_inj in Hx as [<- _]..].
      rewrite exec_bind, exec_lift in Hx. destruct (pair_results _ _); by apply Some_pair_inj in Hx as [<- _].
    - unfold get_size in Hx. rewrite exec_act in Hx. by apply Some_pair_inj in Hx as [<- _].
    - unfold CollModel.update, check_open in Hx. rewrite exec_act in Hx. by apply Some_pair_inj in Hx as [<- _].
    - unfold CollModel.close in Hx. rewrite exec_act in Hx. destruct (closed s); apply Some_pair_inj in Hx as [<- _]; [done|].
      split; [|done]. eapply QInv_same; [..|exact HQ]; try done. apply (q_num _ HQ).
  Qed.

  (** At no point on the way to [s] are there 2^64-1 log records or more. *)
  Definition log_small (h : list event) (s : st) : Prop :=
    forall h1 h2 s1, h = h1 ++ h2 -> hist C empty_st h1 s1 -> hist C s1 h2 s -> (N.of_nat (length (log_view s1)) + 1 < 2 ^ 64)%N.
  Lemma log_small_snoc h e s s' : log_small (h ++ [e]) s' -> ev_step C s e s' -> log_small h s.
  Proof using. intros H Hs h1 h2 s1 -> H1 H2. apply (H h1 (h2 ++ [e]) s1); [by rewrite app_assoc|done|by econstructor]. Qed.
  Lemma log_small_end h s : log_small h s -> hist C empty_st h s -> (N.of_nat (length (log_view s)) + 1 < 2 ^ 64)%N.
  Proof using. intros H Hh. apply (H h [] s); [by rewrite app_nil_r|done|constructor]. Qed.

  Lemma hist_quiet h s :
    hist C empty_st h s -> Forall quiet h -> (N.of_nat (hist_inserts h) < 2 ^ 64)%N -> log_small h s ->
    SInv s /\ (cnt s < 2 ^ 64)%N /\ QInv s /\ batch s = [].
  Proof using Hmax Hdeg.
    intros Hh. induction Hh as [|h e s1 s2 Hh IH Hs]; intros Hf Hn Hl.
    { split_and!; [apply SInv_empty|done|apply QInv_empty|done]. }
    apply Forall_app in Hf as [Hf He]. apply Forall_cons in He as [He _]. rewrite hist_inserts_snoc in Hn.
    assert (Hh2 : hist C empty_st (h ++ [e]) s2) by (by econstructor).
    destruct IH as (HI & Hc & HQ & Hb); [done|lia|by eapply log_small_snoc|].
    destruct (hist_store C empty_st (h ++ [e]) s2 SInv_empty) as [HI2 Hc2]; [rewrite hist_inserts_snoc; change (cnt empty_st) with 0%N; lia|done|].
    rewrite hist_inserts_snoc in Hc2. change (cnt empty_st) with 0%N in Hc2.
    split_and!; [done|lia|..]; eapply (Q_step s1 e s2); try done; by eapply log_small_end.
  Qed.
End quiet.
