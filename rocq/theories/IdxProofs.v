(** What a collection does to its index, call by call: the collection and an
    index on its own that is given the acknowledged insertions and deletions
    stay alike, restarts included. *)
From stdpp Require Import relations sorting.
From Verif Require Import GoBase FloatModel HeapModel ProgModel StateModel WalModel HnswModel StoreModel CollModel CallModel
  ProofBase CodecProofs CodecSpec HeapProofs LogProofs WpProofs StepProofs WalProofs HnswProofs IndexProofs IndexHist CallProofs StoreProofs StoreView HistProofs
  SimProofs RestoreProofs AlignProofs CollWf.
Open Scope nat_scope.

(** The same index; [X]: what only the first one has marked as deleted. *)
Record alike (X : gset N) (s t : st) : Prop := MkAlike {
  al_nodes : nodes s = nodes t;
  al_ep : ep s = ep t;
  al_maxl : maxl s = maxl t;
  al_del : deleted s = deleted t ∪ X;
  al_once1 : once s = true -> nodes s <> ∅;
  al_once2 : once t = true -> nodes t <> ∅
}.

Section alike.
  Context (P : hparams) (tid : nat) (X : gset N).
  Notation asim := (sim (alike X)).

  Lemma alike_nodes s t i v : alike X s t -> alike X (set_nodes (<[i := v]> (nodes s)) s) (set_nodes (<[i := v]> (nodes t)) t).
  Proof using.
    intros [E1 E2 E3 E4 E5 E6]. split; cbn; try done; [by rewrite E1|..]; intros _; apply insert_non_empty.
  Qed.
  Lemma alike_append s t d : alike X s t -> alike X (wal_append d s) (wal_append d t).
  Proof using. intros [E1 E2 E3 E4 E5 E6]. by split. Qed.

  Lemma as_act {A} (f : st -> st * out A) :
    (forall s t, alike X s t -> snd (f s) = snd (f t) /\ alike X (fst (f s)) (fst (f t))) -> asim (act f).
  Proof using.
    intros H s t HR. destruct (H s t HR) as [H1 H2]. destruct (f s) as [s' r], (f t) as [t' r']. cbn in *. subst r'. by exists t'.
  Qed.
  Lemma as_read_vertex n : asim (read_vertex n).
  Proof using. apply sim_read. intros s t HR. by rewrite (al_nodes _ _ _ HR). Qed.
  Lemma as_wal_write d : asim (wal_write d).
  Proof using. destruct d as [d|e|z]; [|done..]. apply as_act. intros s t HR. split; [done|]. by apply alike_append. Qed.
  Lemma as_read_conns n l : asim (read_conns P tid n l).
  Proof using.
    intros s t HR. pose proof (al_nodes _ _ _ HR) as En. rewrite En. destruct (nodes t !! n) as [v|]; [|by exists t].
    destruct (v_lock v); [done|]. destruct (v_conns v !! l) as [cs|]; [case_decide|].
    - by exists t.
    - eexists. split_and!; [done| |done]. rewrite <- En at 1. by apply alike_nodes.
    - eexists. split_and!; [done| |done]. rewrite <- En at 1. by apply alike_nodes.
  Qed.
  Lemma as_visit_conns q ef cs x : asim (visit_conns P q ef cs x).
  Proof using.
    revert x. induction cs as [|c cs IH]; intros x; cbn [visit_conns]; [done|].
    case_bool_decide; [apply IH|]. sim_tac. { apply as_read_vertex. } apply IH.
  Qed.
  Lemma as_search_loop fuel q ef l x : asim (search_loop P tid fuel q ef l x).
  Proof using.
    revert x. induction fuel as [|fuel IH]; intros x; cbn [search_loop]; destruct (sl_cands x) eqn:Ec; try done.
    sim_tac; [apply as_read_conns|apply as_visit_conns|apply IH].
  Qed.
  Lemma as_search_layer fuel q eps ef l : asim (search_layer P tid fuel q eps ef l).
  Proof using. unfold search_layer. sim_tac. apply as_search_loop. Qed.
  Lemma as_descend fuel q l stop e : asim (descend P tid fuel q l stop e).
  Proof using.
    revert e. induction l as [|l IH]; intros e; cbn [descend]; [done|].
    match goal with |- context [if ?b then _ else _] => destruct b end; [|done].
    apply sim_bind; [apply as_search_layer|intros near]. sim_tac; apply IH.
  Qed.
  Lemma as_heur_check e res : asim (heur_check P e res).
  Proof using.
    induction res as [|r res IH]; cbn [heur_check]; [done|].
    apply sim_bind; [apply sim_read; intros s t HR; by rewrite (al_nodes _ _ _ HR)|intros [ev rv]].
    apply sim_bind; [apply sim_lift|intros d]. by destruct (fltb _ _).
  Qed.
  Lemma as_heur_loop n q m res : asim (heur_loop P n q m res).
  Proof using.
    revert q res. induction n as [|n IH]; intros q res; cbn [heur_loop]; destruct q as [|x q]; try done; destruct (_ <? _); try done.
    apply sim_bind; [apply sim_lift|intros [e q']]. apply sim_bind; [apply as_heur_check|intros ok]. apply IH.
  Qed.
  Lemma as_select cands m : asim (select_neighbors P cands m).
  Proof using. unfold select_neighbors, select_heuristic. destruct (hp_heuristic P); [apply as_heur_loop|done]. Qed.
  Lemma as_lock_conns n l : asim (lock_conns tid n l).
  Proof using.
    intros s t HR. pose proof (al_nodes _ _ _ HR) as En. rewrite En. destruct (nodes t !! n) as [v|]; [|by exists t].
    destruct (v_lock v); [done|].
    destruct (v_conns v !! l) as [cs|]; (eexists; split_and!; [done| |done]; rewrite <- En at 1; by apply alike_nodes).
  Qed.
  Lemma as_add_conn_unlock n l id : asim (add_conn_unlock n l id).
  Proof using.
    apply as_act. intros s t HR. pose proof (al_nodes _ _ _ HR) as En. rewrite En. destruct (nodes t !! n) as [v|]; [|done].
    destruct (vertex_add_conn v l id); [|done..]. split; [done|]. cbn [fst]. rewrite <- En at 1. by apply alike_nodes.
  Qed.
  Lemma as_set_conns_unlock n l ns : asim (set_conns_unlock n l ns).
  Proof using.
    apply as_act. intros s t HR. pose proof (al_nodes _ _ _ HR) as En. rewrite En. destruct (nodes t !! n) as [v|]; [|done].
    destruct (vertex_set_conns v l ns); [|done..]. split; [done|]. cbn [fst]. rewrite <- En at 1. by apply alike_nodes.
  Qed.
  Lemma as_set_conns_unlocked n l ns : asim (set_conns_unlocked n l ns).
  Proof using.
    apply as_act. intros s t HR. pose proof (al_nodes _ _ _ HR) as En. rewrite En. destruct (nodes t !! n) as [v|]; [|done].
    destruct (vertex_set_conns v l ns); [|done..]. split; [done|]. cbn [fst]. rewrite <- En at 1. by apply alike_nodes.
  Qed.
  Lemma as_conn_elems b cs : asim (conn_elems P b cs).
  Proof using.
    induction cs as [|c cs IH]; cbn [conn_elems]; [done|]. apply sim_bind; [apply as_read_vertex|intros ?].
    apply sim_bind; [apply sim_lift|intros ?]. apply sim_bind; [apply IH|done].
  Qed.
  Lemma as_link_one id vec l mc n : asim (link_one P tid id vec l mc n).
  Proof using.
    unfold link_one. apply sim_bind; [apply as_lock_conns|]. intros [nv cs]. destruct (_ <? _).
    - apply sim_bind; [apply as_wal_write|intros _]. apply as_add_conn_unlock.
    - apply sim_bind; [apply sim_lift|intros d]. apply sim_bind; [apply as_conn_elems|intros es].
      apply sim_bind; [apply as_select|intros ns]. apply sim_bind; [apply as_wal_write|intros _]. apply as_set_conns_unlock.
  Qed.
  Lemma as_link_all id vec l mc ns : asim (link_all P tid id vec l mc ns).
  Proof using. induction ns as [|n ns IH]; cbn [link_all]; [done|]. apply sim_bind; [apply as_link_one|intros _]. apply IH. Qed.
  Lemma as_construct fuel id vec l eps : asim (construct P tid fuel id vec l eps).
  Proof using.
    revert eps. induction l as [|l IH]; intros eps; cbn [construct].
    all: apply sim_bind; [apply as_search_layer|intros near].
    all: apply sim_bind; [apply as_select|intros ns].
    all: apply sim_bind; [apply as_wal_write|intros _].
    all: apply sim_bind; [apply as_set_conns_unlocked|intros _].
    all: apply sim_bind; [apply as_link_all|intros _].
    - done.
    - apply IH.
  Qed.
  Lemma as_insert fuel level vec id : asim (hnsw_insert P tid fuel level vec id).
  Proof using.
    unfold hnsw_insert. apply sim_bind.
    { unfold once_insert. destruct (enc_set_entry id 0) as [r1| |]; [|done..]. destruct (enc_add_vertex id 0) as [r2| |]; [|done..].
      apply as_act. intros s t [E1 E2 E3 E4 E5 E6].
      destruct (decide (nodes t = ∅)) as [En|En].
      - assert (once s = false) as -> by (destruct (once s); [by destruct E5; [|rewrite E1]|done]).
        assert (once t = false) as -> by (destruct (once t); [by destruct E6|done]).
        cbn [nodes set_once]. rewrite E1, bool_decide_eq_true_2 by done. split; [done|]. cbn [fst].
        split; cbn; try done; [by rewrite E1|..]; intros _; apply insert_non_empty.
      - cbn [nodes set_once]. rewrite E1, bool_decide_eq_false_2 by done. rewrite E1 in E5.
        destruct (once s), (once t); (split; [done|]); split; cbn; try done; rewrite ?E1; by intros. }
    intros [|]; [done|].
    apply sim_bind; [apply as_wal_write|intros _].
    apply sim_bind; [apply as_act; intros s t HR; split; [done|]; by apply alike_nodes|intros _].
    apply sim_bind; [apply sim_read; intros s t HR; by rewrite (al_nodes _ _ _ HR), (al_ep _ _ _ HR), (al_maxl _ _ _ HR)|intros [[epid epv] cur]].
    apply sim_bind; [apply sim_lift|intros d].
    apply sim_bind; [apply as_descend|intros e].
    apply sim_bind; [apply as_construct|intros _].
    unfold raise_entry. destruct (enc_set_entry id level) as [r|x|z]; [|done..].
    apply as_act. intros s t HR. destruct (cur <? level); (split; [done|]); [|done]. cbn [fst].
    destruct HR as [E1 E2 E3 E4 E5 E6]. by split.
  Qed.

  (** A search sees the same if no vertex is in [X]. *)
  Lemma take_live_same n h d d' k : (forall e, e ∈ h -> e_id e ∈ d <-> e_id e ∈ d') -> take_live n h d k = take_live n h d' k.
  Proof using.
    revert h k. induction n as [|n IH]; intros [|e h] k Hd; try done; destruct k as [|k]; try done. cbn [take_live].
    destruct (heap_pop min_less (e :: h)) as [[x h']| |] eqn:Ep; [|done..]. cbn [mbind out_bind].
    assert (Hp : e :: h ≡ₚ x :: h') by (by apply heap_pop_perm in Ep).
    assert (Hx : e_id x ∈ d <-> e_id x ∈ d') by (apply Hd; rewrite Hp; by left).
    assert (Hh : forall y, y ∈ h' -> e_id y ∈ d <-> e_id y ∈ d') by (intros y Hy; apply Hd; rewrite Hp; by right).
    rewrite (bool_decide_ext _ _ Hx). destruct (bool_decide _); rewrite (IH h') by done; done.
  Qed.
  Lemma search_same fuel q k s t t' es :
    alike X s t -> (forall id, is_Some (nodes t !! id) -> id ∉ X) ->
    exec (hnsw_search P tid fuel q k) t = Some (t', Val es) -> exec (hnsw_search P tid fuel q k) s = Some (s, Val es) /\ t' = t.
  Proof using.
    intros HR HX He. pose proof (al_nodes _ _ _ HR) as En.
    unfold hnsw_search in *. destruct (k <? 0)%Z; [done|]. apply exec_bind_val in He as (s1 & [[i v] cur] & H1 & He).
    unfold read_entry in H1. rewrite exec_act in H1. apply Some_pair_inj in H1 as [<- Hv]. destruct (nodes t !! ep t) as [w|] eqn:Ew; [|done].
    apply Val_inj in Hv. apply exec_bind_val in He as (s2 & d & H2 & He). rewrite exec_lift in H2. apply Some_pair_inj in H2 as [<- Hd].
    injection Hv as <- <- <-.
    apply exec_bind_val in He as (s3 & e & H3 & He). pose proof (pure_descend _ _ _ _ _ _ _ _ _ _ H3) as ->.
    assert (Fe : found P q t e) by (eapply descend_found; [|exact H3]; by exists w).
    apply exec_bind_val in He as (s4 & near & H4 & He). pose proof (pure_search_layer _ _ _ _ _ _ _ _ _ _ H4) as ->.
    assert (Fn : Forall (found P q t) near) by (eapply layer_found; [|exact H4]; by repeat constructor).
    apply exec_bind_val in He as (s5 & dels & H5 & He). rewrite exec_act in H5. apply Some_pair_inj in H5 as [<- Hdl]. apply Val_inj in Hdl as <-.
    rewrite exec_lift in He. apply Some_pair_inj in He as [<- He]. split; [|done].
    assert (Hs : forall {A} (p : prog st A) r, asim p -> exec p t = Some (t, Val r) -> (forall s', exec p s = Some (s', Val r) -> s' = s) -> exec p s = Some (s, Val r)).
    { intros A p r Hp Ht Hpu. pose proof (sim_exec _ _ _ _ Hp HR) as Hx. destruct (exec p s) as [[s' r']|] eqn:Es.
      - destruct Hx as (t2 & E2 & _). rewrite Ht in E2. injection E2 as <- <-. by rewrite (Hpu s' eq_refl).
      - by rewrite Ht in Hx. }
    rewrite exec_bind. unfold read_entry. rewrite exec_act, En, (al_ep _ _ _ HR), Ew, (al_maxl _ _ _ HR). cbn [mbind out_bind or_pan].
    rewrite exec_bind, exec_lift, Hd. rewrite exec_bind.
    rewrite (Hs _ _ _ (as_descend fuel q _ _ _) H3) by (intros s' Hx; by apply pure_descend in Hx).
    rewrite exec_bind, (Hs _ _ _ (as_search_layer fuel q _ _ _) H4) by (intros s' Hx; by apply pure_search_layer in Hx).
    rewrite exec_bind, exec_act, exec_lift. f_equal. f_equal. rewrite <- He. apply take_live_same. intros y Hy.
    assert (Hy' : y ∈ near) by (unfold new_min_heap in Hy; by rewrite heap_init_perm in Hy).
    rewrite (al_del _ _ _ HR), elem_of_union. rewrite Forall_forall in Fn. destruct (Fn y Hy') as (u & Hu & _).
    specialize (HX (e_id y) (ltac:(by eexists))). tauto.
  Qed.
End alike.

(** ** What the calls of a history mean for the index *)
(** An acknowledged Insert is an insertion of the embedded vector under the id
    given; a Delete that succeeds is a deletion if the id had been given out
    ([given]); nothing else changes the index. *)
Definition ev_ops (given : list N) (e : event) : list iop :=
  match e with
  | EvCall (CInsert _ level _) (RIns (Val o)) => [IInsert level (default [] (o_vec o)) (o_id o)]
  | EvCall (CDelete _ id) (RUnit (Val _)) => if bool_decide (id ∈ given) then [IDelete id] else []
  | _ => []
  end.
Fixpoint ops_from (given : list N) (h : list event) : list iop :=
  match h with
  | [] => []
  | e :: h' => ev_ops given e ++ ops_from (given ++ (o_id <$> acked e)) h'
  end.
Definition index_ops (h : list event) : list iop := ops_from [] h.

Lemma ops_from_snoc g h e : ops_from g (h ++ [e]) = ops_from g h ++ ev_ops (g ++ acked_ids h) e.
Proof.
  revert g. induction h as [|a h IH]; intros g; cbn [app ops_from].
  - unfold acked_ids. cbn. by rewrite !app_nil_r.
  - assert (E : acked_ids (a :: h) = (o_id <$> acked a) ++ acked_ids h) by (unfold acked_ids; rewrite fmap_cons; apply fmap_app).
    rewrite IH, E. by rewrite <- !app_assoc.
Qed.
Lemma index_ops_snoc h e : index_ops (h ++ [e]) = index_ops h ++ ev_ops (acked_ids h) e.
Proof. apply ops_from_snoc. Qed.

Definition same_graph (s s' : st) : Prop :=
  nodes s' = nodes s /\ ep s' = ep s /\ maxl s' = maxl s /\ deleted s' = deleted s /\ once s' = once s.
Lemma alike_graph X s s' t : same_graph s s' -> alike X s t -> alike X s' t.
Proof. intros (E1 & E2 & E3 & E4 & E5) [A1 A2 A3 A4 A5 A6]. split; rewrite ?E1, ?E2, ?E3, ?E4, ?E5; done. Qed.
Lemma put_graph J m o s s' r : exec (put_object J m o) s = Some (s', r) -> same_graph s s' /\ cnt s' = cnt s.
Proof.
  unfold put_object. rewrite exec_bind, exec_lift. destruct (ser_props _ _) as [ob| |]; [|by intros [= <- <-]..].
  rewrite exec_bind, exec_lift. destruct (ser_vec _) as [vb| |]; [|by intros [= <- <-]..].
  rewrite exec_bind, exec_act. destruct (bc_put _ _ _ _) as [m1| |]; [|by intros [= <- <-]..].
  destruct (closed s) eqn:Ecl; [by intros [= <- <-]|]. rewrite exec_act. cbn [vecs set_objs closed]. rewrite Ecl.
  destruct (bc_put _ _ _ _) as [m2| |]; by intros [= <- <-].
Qed.
Lemma flush_graph io s s' r : wal_flush io s = (s', r) -> same_graph s s' /\ cnt s' = cnt s.
Proof. unfold wal_flush. repeat case_match; by intros [= <- <-]. Qed.

(** An Insert that fails leaves the index alone. *)
Lemma insert_err_index C level o s s' e :
  numbered s -> (N.of_nat (length (log_view s')) + 1 < 2 ^ 64)%N -> (cnt s + 1 < 2 ^ 64)%N ->
  exec (CollModel.insert C 0 true level o) s = Some (s', Err e) -> same_graph s s' /\ (cnt s <= cnt s')%N.
Proof.
  intros Hn Hl Hc Hx. unfold CollModel.insert in Hx. rewrite exec_bind in Hx. unfold check_open in Hx. rewrite exec_act in Hx.
  destruct (closed s) eqn:Ecl; [by apply Some_pair_inj in Hx as [<- _]|].
  rewrite exec_bind, exec_lift in Hx. destruct (validate_objects C 0 [o]); [|by apply Some_pair_inj in Hx as [<- _]..].
  rewrite exec_bind, exec_lift in Hx. destruct (embed_objects C [o]) as [os| |]; [|by apply Some_pair_inj in Hx as [<- _]..].
  destruct os as [|o' [|? ?]]; [done| |done].
  rewrite exec_bind in Hx. destruct (exec (insert_one C 0 level o') s) as [[s1 [o2|e2|z2]]|] eqn:E1; [| |done..].
  - exfalso. assert (Hn1 : numbered s1).
    { pose proof (steps_exec wal_rel wal_rel_refl wal_rel_trans _ _ _ _ (wr_insert_one C 0 level o') E1) as (H & _). auto. }
    rewrite exec_bind in Hx. unfold flush in Hx. rewrite exec_act in Hx. destruct (wal_flush true s1) as [s2 r2] eqn:Ef.
    assert (Hl1 : (N.of_nat (length (log_view s1)) + 1 < 2 ^ 64)%N).
    { pose proof (wal_rel_flush true s1) as (_ & [l E] & _). rewrite Ef in E. cbn [fst] in E.
      assert (s' = s2) as -> by (destruct r2; cbn in Hx; congruence). rewrite E, app_length in Hl. lia. }
    unfold wal_flush in Ef. rewrite (numbered_in_order _ Hn1 Hl1) in Ef. destruct (batch s1); injection Ef as <- <-; done.
  - assert (s1 = s') as -> by congruence. clear Hx. unfold insert_one in E1. rewrite exec_bind in E1. unfold fetch_and_inc in E1. rewrite exec_act in E1. cbn zeta in E1. rewrite Ecl in E1.
    cbn beta iota in E1. rewrite exec_bind in E1. set (sc := set_cnt _ _ s) in E1.
    assert (Hsc : (cnt s <= cnt sc)%N) by (unfold sc; cbn; unfold u64; rewrite N.mod_small by lia; lia).
    destruct (exec (put_object _ _ _) sc) as [[sp [[]|e3|z3]]|] eqn:Ep; [| |done..].
    + exfalso. rewrite exec_bind in E1. destruct (exec (hnsw_insert _ _ _ _ _ _) sp) as [[sq [[]|e4|z4]]|] eqn:Eh; [done| |done..].
      apply (no_err_exec _ _ _ _ (ne_insert _ _ _ _ _ _)) in Eh. by apply (Eh e4).
    + assert (sp = s') as -> by congruence. clear E1. apply put_graph in Ep as [Ep ->]. done.
Qed.

(** An Insert that succeeds is an insertion into the index. *)
Lemma insert_val_index C level o s s' o2 :
  exec (CollModel.insert C 0 true level o) s = Some (s', Val o2) ->
  exists os sp sq, embed_objects C [o] = Val [os] /\ o_id o2 = cnt s /\ o_vec o2 = o_vec os /\ o_props o2 = o_props os /\
    same_graph s sp /\ cnt sp = u64 (cnt s + 1) /\
    exec (hnsw_insert (cp_h C) 0 (cp_fuel C) level (default [] (o_vec o2)) (o_id o2)) sp = Some (sq, Val tt) /\ same_graph sq s' /\ cnt s' = cnt sq.
Proof.
  intros Hx. unfold CollModel.insert in Hx. rewrite exec_bind in Hx. unfold check_open in Hx. rewrite exec_act in Hx.
  destruct (closed s) eqn:Ecl; [done|].
  rewrite exec_bind, exec_lift in Hx. destruct (validate_objects C 0 [o]); [|done..].
  rewrite exec_bind, exec_lift in Hx. destruct (embed_objects C [o]) as [os| |] eqn:Ee; [|done..].
  destruct os as [|o' [|? ?]]; [done| |done].
  apply exec_bind_val in Hx as (s1 & o3 & H1 & Hx). unfold insert_one in H1. apply exec_bind_val in H1 as (sc & id & H2 & H1).
  unfold fetch_and_inc in H2. rewrite exec_act in H2. cbn zeta in H2. rewrite Ecl in H2. apply Some_pair_inj in H2 as [<- <-%Val_inj].
  apply exec_bind_val in H1 as (sp & u & H3 & H1). apply put_graph in H3 as [H3 H3c].
  apply exec_bind_val in H1 as (sq & [] & H4 & H1). cbn in H1. apply Some_pair_inj in H1 as [<- <-%Val_inj].
  apply exec_bind_val in Hx as (s2 & u2 & H5 & Hx). cbn in Hx. apply Some_pair_inj in Hx as [<- <-%Val_inj].
  unfold flush in H5. rewrite exec_act in H5. destruct (wal_flush true sq) as [s3 r3] eqn:Ef. apply Some_pair_inj in H5 as [<- ->].
  apply flush_graph in Ef as [G1 G2]. exists o', sp, sq. split_and!; try done.
Qed.

Section hist.
  Context (C : cparams) (n B : nat).
  Notation P := (cp_h C).
  Context (HP : params_ok P) (Hk : dim_ok (hp_dist P) n) (HB : B <= cp_fuel C) (HB64 : (N.of_nat B < 2 ^ 64)%N).
  Context (Hmax : (cp_maxval C < 2 ^ 32)%N) (Hdeg : (N.of_nat (Nat.max (hp_m P) (2 * hp_mMax P)) < 2 ^ 32)%N) (HJ : json_total (cp_json C)).

  (** The index [t] on its own, after the operations [ops], and the collection
      [s]; [X]: ids the collection deleted though they had never been acknowledged. *)
  Record matched (ids : list N) (ops : list iop) (s t : st) (rs : list (out (list elem))) (X : gset N) : Prop := MkMatched {
    mt_run : irun P (cp_fuel C) ops empty_st = Some (t, rs);
    mt_rep : Forall (fun r => r = Val []) rs;
    mt_alike : alike X s t;
    mt_out : forall id, id ∈ X -> (id < cnt s)%N /\ id ∉ ids;
    mt_ok : hist_ok P n ops;
    mt_ins : hist_ins ops = ids;
    mt_del : forall id, id ∈ hist_del ops -> id ∈ ids;
    mt_len : length ids <= N.to_nat (cnt s)
  }.

  Lemma matched_graph ids ops s s' t rs X : same_graph s s' -> (cnt s <= cnt s')%N -> matched ids ops s t rs X -> matched ids ops s' t rs X.
  Proof using.
    clear HP Hk HB HB64 Hmax Hdeg HJ. intros G Hc [H1 H2 HA H4 H5 H6 H7 H8]. split; try done.
    - by eapply alike_graph.
    - intros id Hid. destruct (H4 id Hid) as [? ?]. split; [lia|done].
    - lia.
  Qed.
  Lemma irun_snoc ops t rs o t' r : irun P (cp_fuel C) ops empty_st = Some (t, rs) -> exec (iop_prog P (cp_fuel C) o) t = Some (t', r) ->
    irun P (cp_fuel C) (ops ++ [o]) empty_st = Some (t', rs ++ [r]).
  Proof using. intros H1 H2. rewrite irun_app, H1. cbn [irun]. by rewrite H2. Qed.

  Lemma matched_inv ids ops s t rs X : matched ids ops s t rs X -> (cnt s <= N.of_nat B)%N ->
    HInv P (fun v => length v = n) (list_to_set ids) ops t /\ (forall id, is_Some (nodes s !! id) <-> id ∈ ids) /\
    (forall id, id ∈ deleted s <-> id ∈ hist_del ops \/ id ∈ X).
  Proof using HP Hk HB.
    clear HB64 Hmax Hdeg HJ. intros [H1 H2 [A1 A2 A3 A4 A5 A6] H4 H5 H6 H7 H8] Hc.
    destruct (irun_new P n (fun v => length v = n) (cp_fuel C) ops HP H5) as (t' & rs' & E & _ & _ & HH & _).
    { intros v1 v2 Hv1 Hv2. by eapply dist_total. }
    { apply (hok_dim _ _ _ H5). }
    { rewrite H6. lia. }
    rewrite H1 in E. injection E as <- <-. rewrite H6 in HH. split; [done|]. split.
    - intros id. rewrite A1. split.
      + intros [v Hv]. destruct (hi_back _ _ _ _ _ HH _ _ Hv) as (l & Hin & _). rewrite <- H6. by eapply hist_ins_in.
      + intros Hid. rewrite <- H6 in Hid. unfold hist_ins in Hid. apply elem_of_list_join in Hid as (l & Hl & Hin).
        apply elem_of_list_fmap in Hin as (o & -> & Ho). destruct o as [level vec id'|id'|q k]; cbn in Hl; [|by apply elem_of_nil in Hl..].
        apply elem_of_list_singleton in Hl as ->. destruct (hi_fwd _ _ _ _ _ HH _ _ _ Ho) as (v & Hv & _). by eexists.
    - intros id. rewrite A4, elem_of_union, (hi_del _ _ _ _ _ HH), elem_of_list_to_set. done.
  Qed.

  Lemma hist_ok_insert ops level v id : hist_ok P n ops -> length v = n -> id ∉ hist_ins ops -> hist_ok P n (ops ++ [IInsert level v id]).
  Proof using.
    intros [H1 H2 H3 H4] Hv Hid. split; [done| | |].
    - intros w. rewrite hist_vecs_app. cbn. rewrite elem_of_app, elem_of_list_singleton. intros [? | ->]; [by apply H2|done].
    - rewrite hist_ins_app. cbn. apply NoDup_app. split_and!; [done|intros x Hx ->%elem_of_list_singleton; done|apply NoDup_singleton].
    - intros pre q k post E. destruct post as [|o post _] using rev_ind; [by apply app_inj_tail in E as [_ E]|].
      rewrite app_comm_cons, app_assoc in E. apply app_inj_tail in E as [-> _]. by eapply H4.
  Qed.
  Lemma hist_ok_delete ops id : hist_ok P n ops -> hist_ok P n (ops ++ [IDelete id]).
  Proof using.
    intros [H1 H2 H3 H4]. split; [done| | |].
    - intros w. rewrite hist_vecs_app. cbn. rewrite app_nil_r. apply H2.
    - rewrite hist_ins_app. cbn. by rewrite app_nil_r.
    - intros pre q k post E. destruct post as [|o post _] using rev_ind; [by apply app_inj_tail in E as [_ E]|].
      rewrite app_comm_cons, app_assoc in E. apply app_inj_tail in E as [-> _]. by eapply H4.
  Qed.

  (** Deleting in both, in the collection only, or in the index only what the
      collection has already deleted. *)
  Lemma exec_delete_index id t : exists t', exec (iop_prog P (cp_fuel C) (IDelete id)) t = Some (t', Val []) /\
    nodes t' = nodes t /\ ep t' = ep t /\ maxl t' = maxl t /\ once t' = once t /\ deleted t' = {[id]} ∪ deleted t.
  Proof using. cbn [iop_prog]. unfold hnsw_delete. rewrite enc_delete_eq, exec_bind, exec_act. by eexists. Qed.
  Lemma matched_delete ids ops s s' t rs X id : matched ids ops s t rs X -> id ∈ ids ->
    nodes s' = nodes s -> ep s' = ep s -> maxl s' = maxl s -> once s' = once s -> deleted s' = {[id]} ∪ deleted s -> cnt s' = cnt s ->
    exists t' rs', matched ids (ops ++ [IDelete id]) s' t' rs' X.
  Proof using.
    intros [H1 H2 [A1 A2 A3 A4 A5 A6] H4 H5 H6 H7 H8] Hid E1 E2 E3 E4 E5 E6.
    destruct (exec_delete_index id t) as (t' & Hx & F1 & F2 & F3 & F4 & F5). exists t', (rs ++ [Val []]). split.
    - by eapply irun_snoc.
    - apply Forall_app. by repeat constructor.
    - split; rewrite ?E1, ?E2, ?E3, ?E4, ?F1, ?F2, ?F3, ?F4; try done. rewrite E5, A4, F5. by rewrite (assoc_L (∪)).
    - by rewrite E6.
    - by apply hist_ok_delete.
    - rewrite hist_ins_app. cbn. by rewrite app_nil_r.
    - intros k. rewrite hist_del_app. cbn. rewrite elem_of_app, elem_of_list_singleton. intros [? | ->]; [by apply H7|done].
    - by rewrite E6.
  Qed.

  Lemma hist_matches h s :
    hist C empty_st h s -> Forall (tidy_ev C n) h -> fed_first h -> hist_inserts h <= B -> log_small C h s ->
    exists t rs X, matched (acked_ids h) (index_ops h) s t rs X.
  Proof using HP Hk HB HB64 Hmax Hdeg HJ.
    intros Hh. induction Hh as [|h e s1 s2 Hh IH Hs]; intros Ht Hf Hn Hl.
    { exists empty_st, [], ∅. split; try done; [split; try done; by rewrite union_empty_r_L|].
      split; [done|..]; [by intros v ?%elem_of_nil|by apply NoDup_nil|]. intros pre q k post E. by destruct pre. }
    assert (Hh2 : hist C empty_st (h ++ [e]) s2) by (by econstructor).
    destruct (hist_tidy C n B false HP (seq_slack P HP) Hk HB HB64 Hmax Hdeg HJ _ s2 Hh2 Ht Hf Hn Hl) as (HW2 & _ & Hp2 & Hc2 & _).
    apply Forall_app in Hp2 as [_ Hp2]. apply Forall_cons in Hp2 as [Hp2 _].
    apply Forall_app in Ht as [Ht He]. apply Forall_cons in He as [He _]. rewrite hist_inserts_snoc in Hn.
    pose proof (fed_first_snoc h e Hf) as Hf1. pose proof (log_small_snoc C h e s1 s2 Hl Hs) as Hl1.
    specialize (IH Ht Hf1 ltac:(lia) Hl1).
    destruct (hist_tidy C n B false HP (seq_slack P HP) Hk HB HB64 Hmax Hdeg HJ _ s1 Hh Ht Hf1 ltac:(lia) Hl1) as (HW & Hq & _ & Hc & Ha).
    destruct (hist_quiet C Hmax Hdeg h s1 Hh Hq ltac:(lia) Hl1) as (HI & _ & HQ & Hb).
    rewrite index_ops_snoc, acked_ids_snoc. destruct IH as (t & rs & X & HM).
    inversion Hs as [c s3 r Hr|s3 Hr|c m s3 s4 Hcut Hr]; subst; [| |done].
    2:{ destruct (Q_restart C s1 s2 HI HQ Hb Hr) as (_ & _ & E1 & E2 & E3 & E4 & _).
      destruct (reopen_store _ _ Hr) as (R1&R2&R3&R4&_). cbn in R1, R2, R3, R4. rewrite R2, (si_file _ HI) in R1. apply Val_inj in R1.
      cbn [ev_ops acked fmap list_fmap]. rewrite !app_nil_r.
      destruct HM as [H1 H2 [A1 A2 A3 A4 A5 A6] H4 H5 H6 H7 H8]. exists t, rs, X. split; try done.
      - split; rewrite ?E1, ?E2, ?E3, ?E4; try done. rewrite (reopen_once _ _ Hr). done.
      - by rewrite <- R1.
      - by rewrite <- R1. }
    assert (Hkeep : same_graph s1 s2 -> (cnt s1 <= cnt s2)%N -> ev_ops (acked_ids h) (EvCall c r) = [] -> acked (EvCall c r) = [] ->
      exists t rs X, matched (acked_ids h ++ (o_id <$> acked (EvCall c r))) (index_ops h ++ ev_ops (acked_ids h) (EvCall c r)) s2 t rs X).
    { intros G1 G2 -> ->. cbn [fmap list_fmap]. rewrite !app_nil_r. exists t, rs, X. by eapply matched_graph. }
    pose proof (log_small_end C _ s2 Hl Hh2) as Hlen.
    destruct (matched_inv _ _ _ _ _ _ HM ltac:(lia)) as (HH & Hnid & Hdel).
    destruct c as [io level o|io ol|io ol|io id|ids|o k| |o| ]; try done; cbn [tidy_ev tidy ev_inserts submitted length] in *.
    - destruct He as (-> & Hi & Hd). inversion Hr as [io' level' o' s3 r1 Hx| | | | | | | | | |]; subst.
      destruct r1 as [o2|e|z]; [| |by destruct (Hp2 z)].
      2:{ destruct (insert_err_index C level o s1 s2 e (q_num _ _ HQ) Hlen ltac:(lia) Hx) as [? ?]. by apply Hkeep. }
      destruct (insert_val_index C level o s1 s2 o2 Hx) as (os & sp & sq & Ee & Eid & Evec & Eprops & G1 & Gc & Hi2 & G2 & Gc2).
      cbn [ev_ops acked fmap list_fmap]. destruct HM as [H1 H2 HA H4 H5 H6 H7 H8].
      assert (HA1 : alike X sp t) by (by eapply alike_graph).
      pose proof (sim_exec _ _ _ _ (as_insert P 0 X (cp_fuel C) level (default [] (o_vec o2)) (o_id o2)) HA1) as Hsim. rewrite Hi2 in Hsim.
      destruct Hsim as (t' & Ht' & HA2).
      assert (Ecnt : cnt s2 = (cnt s1 + 1)%N).
      { rewrite Gc2. pose proof (steps_exec keep_store keep_store_refl keep_store_trans _ _ _ _ (insert_keep_store _ _ _ _ _ _) Hi2) as (_&_&Hks&_).
        rewrite Hks, Gc. unfold u64. rewrite N.mod_small; lia. }
      assert (Hlt : forall id, id ∈ acked_ids h -> (id < cnt s1)%N) by (intros id Hid; apply (wf_id _ _ _ _ _ HW); by apply Ha).
      exists t', (rs ++ [Val []]), X. split.
      + eapply irun_snoc; [done|]. cbn [iop_prog]. by rewrite exec_bind, Ht'.
      + apply Forall_app. by repeat constructor.
      + by eapply alike_graph.
      + intros id Hid. destruct (H4 id Hid) as [Hid1 Hid2]. split; [lia|]. rewrite elem_of_app, elem_of_list_singleton, Eid. intros [? | ->]; [done|lia].
      + apply hist_ok_insert; [done| |rewrite H6, Eid; intros Hx2%Hlt; lia]. rewrite Evec. destruct Hd as [_ Hd]. apply (Hd [os] os); [done|by apply elem_of_list_here].
      + rewrite hist_ins_app. cbn. by rewrite H6.
      + intros id. rewrite hist_del_app. cbn. rewrite app_nil_r. intros Hid. apply elem_of_app. left. by apply H7.
      + rewrite app_length. cbn. lia.
    - destruct He as [-> Hid]. inversion Hr as [| | | | |io' id' f s3 r1 Hlk Hx| | | | |]; subst. unfold delete_found in Hx. rewrite exec_bind, exec_act in Hx.
      destruct f as [[o|]|e|z].
      + rewrite exec_bind in Hx. unfold delete_object in Hx. rewrite exec_act in Hx.
        destruct (closed s1) eqn:Ecl; [apply Some_pair_inj in Hx as [<- <-]; by apply Hkeep|].
        set (sa := set_objs _ s1) in Hx. rewrite exec_bind in Hx. unfold hnsw_delete in Hx. rewrite enc_delete_eq, exec_act in Hx.
        set (sb := set_deleted _ _) in Hx. unfold flush in Hx. rewrite exec_act in Hx. destruct (wal_flush true sb) as [s4 r4] eqn:Ef.
        apply Some_pair_inj in Hx as [-> ->]. destruct (flush_graph _ _ _ _ Ef) as [(F1 & F2 & F3 & F4 & F5) F6].
        assert (Hv : exists u, r1 = Val u).
        { assert (Hnb : numbered sb) by (apply (wal_rel_append _ sa), (q_num _ _ HQ)).
          assert (Hlb : (N.of_nat (length (log_view sb)) + 1 < 2 ^ 64)%N).
          { pose proof (wal_rel_flush true sb) as (_ & [l E] & _). rewrite Ef in E. cbn [fst] in E. rewrite E, app_length in Hlen. lia. }
          unfold wal_flush in Ef. rewrite (numbered_in_order _ Hnb Hlb) in Ef. destruct (batch sb); injection Ef as _ <-; by eexists. }
        destruct Hv as [u ->]. cbn [ev_ops acked fmap list_fmap]. rewrite app_nil_r.
        case_bool_decide as Hin.
        * destruct (matched_delete _ _ _ s2 _ _ _ id HM Hin F1 F2 F3 F5 F4 F6) as (t' & rs' & HM'). by exists t', rs', X.
        * rewrite app_nil_r. exists t, rs, ({[id]} ∪ X). destruct HM as [H1 H2 [A1 A2 A3 A4 A5 A6] H4 H5 H6 H7 H8]. split; try done.
          -- split; rewrite ?F1, ?F2, ?F3, ?F5; try done. rewrite F4. cbn. rewrite A4. clear. set_solver.
          -- intros j. rewrite F6. change (cnt sb) with (cnt s1). rewrite elem_of_union, elem_of_singleton. intros [-> | Hj]; [|by apply H4]. split; [|done].
             assert (Hkn : known s1 id).
             { inversion Hlk as [Eg| | |o' Hk' Eo]; [|done]. left. unfold get_object in Eg. by destruct (objs s1 !! id_key id). }
             destruct Hkn as [Ho|(j & Ej & Hj)].
             ++ destruct (si_keys _ HI (id_key id)) as (j & Ej & Hj); [left; by apply not_eq_None_Some|].
                apply id_key_inj in Ej as ->; [done|done|lia].
             ++ apply Hdel in Hj. assert (Hjc : (j < cnt s1)%N).
                { destruct Hj as [Hj|Hj]; [|by apply H4]. apply (wf_id _ _ _ _ _ HW), Ha. by apply H7. }
                apply id_key_inj in Ej as ->; [done|lia|done].
          -- by rewrite F6.
      + apply Some_pair_inj in Hx as [<- <-]. cbn [ev_ops acked fmap list_fmap]. rewrite app_nil_r. case_bool_decide as Hin.
        * assert (Hg : objs s1 !! id_key id = None \/ vecs s1 !! id_key id = None).
          { inversion Hlk as [Eg|Hg| |]; [|done]. unfold get_object in Eg. destruct (objs s1 !! id_key id); [|by left]. destruct (closed s1); [done|].
            destruct (vecs s1 !! id_key id) as [vb|]; [|by right]. exfalso. revert Eg. destruct (de_props _ _); cbn; [|done..]. by destruct (de_vec vb). }
          assert (Hdl : id ∈ deleted s1).
          { destruct (decide (id ∈ deleted s1)) as [|Hnd]; [done|]. destruct (wf_al _ _ _ _ _ HW id (Ha id Hin) Hnd) as [Ho Hv2]. clear -Hg Ho Hv2. destruct Hg as [E|E]; [rewrite E in Ho; by destruct Ho|rewrite E in Hv2; by destruct Hv2]. }
          assert (Ed : deleted s1 = {[id]} ∪ deleted s1) by set_solver.
          destruct (matched_delete _ _ _ s1 _ _ _ id HM Hin eq_refl eq_refl eq_refl eq_refl Ed eq_refl) as (t' & rs' & HM'). by exists t', rs', X.
        * rewrite app_nil_r. by exists t, rs, X.
      + apply Some_pair_inj in Hx as [<- <-]. by apply Hkeep.
      + apply Some_pair_inj in Hx as [<- <-]. by apply Hkeep.
    - inversion Hr as [| | | | | |ids' s3 r1 Hx| | | |]; subst. unfold CollModel.get in Hx. rewrite exec_act in Hx. injection Hx as <- _. by apply Hkeep.
    - inversion Hr as [| | | | | | |o' k' s3 r1 Hx| | |]; subst. destruct He as [Hd Hk0].
      assert (Hen : enc_ok C s1) by (eapply hist_enc; [exact Hh|apply enc_empty]).
      assert (Hne : nodes s1 <> ∅).
      { specialize (Hf h _ _ [] eq_refl eq_refl). intros E2. destruct (acked_ids h) as [|i l]; [done|].
        destruct (Ha i ltac:(by left)) as [v Hv]. by rewrite E2 in Hv. }
      destruct (wf_search C n B false HP (seq_slack P HP) Hk HB HB64 o k s1 Hmax HJ Hen HW Hne Hd Hk0) as (r2 & Hx2 & _).
      rewrite Hx in Hx2. injection Hx2 as -> _. by apply Hkeep.
    - inversion Hr as [| | | | | | | |s3 r1 Hx| |]; subst. unfold get_size in Hx. rewrite exec_act in Hx. injection Hx as <- _. by apply Hkeep.
    - inversion Hr as [| | | | | | | | |o' s3 r1 Hx|]; subst. unfold CollModel.update, check_open in Hx. rewrite exec_act in Hx. injection Hx as <- _. by apply Hkeep.
    - inversion Hr as [| | | | | | | | | |s3 r1 Hx]; subst. unfold CollModel.close in Hx. rewrite exec_act in Hx. destruct (closed s1); injection Hx as <- _; by apply Hkeep.
  Qed.
End hist.
