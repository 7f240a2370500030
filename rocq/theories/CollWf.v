(** A collection used by one call at a time, with vectors of one dimension: no
    call panics. *)
From stdpp Require Import relations sorting.
From Verif Require Import GoBase FloatModel HeapModel ProgModel StateModel WalModel HnswModel StoreModel CollModel CallModel
  ProofBase CodecProofs CodecSpec LogProofs FloatProofs HeapProofs WpProofs HnswProofs IndexProofs StepProofs SeqLog IndexHist SimProofs
  StoreProofs CallProofs HistProofs WalProofs StoreView RestoreProofs ParLog ParHist AlignProofs.
Open Scope nat_scope.
Local Arguments id_key _ : simpl never.
Local Arguments le_put _ _ : simpl never.

Lemma restore_once r s s' : restore r s = Val s' -> once s' = once s.
Proof.
  unfold restore. destruct r as [|op r]; [done|].
  repeat match goal with |- (if ?b then _ else _) = _ -> _ => destruct b end; intros H; [..|done].
  - unfold de_add_vertex in H. out_inv H. by apply Val_inj in H as <-.
  - unfold de_set_entry in H. out_inv H. by apply Val_inj in H as <-.
  - unfold de_set_conns in H. out_inv H. by apply Val_inj in H as <-.
  - unfold de_add_conn in H. out_inv H. by apply Val_inj in H as <-.
  - unfold de_delete in H. out_inv H. by apply Val_inj in H as <-.
Qed.
Lemma replay_once rs s s' : replay rs s = Val s' -> once s' = once s.
Proof.
  revert s. induction rs as [|r rs IH]; intros s H; cbn [replay] in H.
  - by apply Val_inj in H as <-.
  - destruct (restore r s) as [s1|e|z] eqn:E; [|done..]. cbn in H. rewrite (IH _ H). by eapply restore_once.
Qed.
Lemma populate_once m kvs s s' : CollModel.populate m kvs s = Val s' -> once s' = once s.
Proof.
  revert s. induction kvs as [|[k v] kvs IH]; intros s H; cbn [CollModel.populate] in H.
  - by apply Val_inj in H as <-.
  - destruct (or_pan PIndex (le_get 8 k)) as [id|e|z]; [|done..]. cbn in H.
    destruct (get_vector m id) as [ov|e|z]; [|done..]. cbn in H. destruct (nodes s !! id) as [w|]; [|done]. by rewrite (IH _ H).
Qed.
Lemma reopen_once d s' : reopen d = Val s' -> once s' = false.
Proof.
  unfold reopen. destruct (open_counter (d_cfile d)) as [c|e|z] eqn:Ec; [|done..]. cbn [mbind out_bind].
  match goal with |- context [replay _ ?x] => set (s0 := x) end.
  destruct (replay (d_log d) s0) as [s1|e|z] eqn:Er; [|done..]. cbn [mbind out_bind]. intros Hp.
  by rewrite (populate_once _ _ _ _ Hp), (replay_once _ _ _ Er).
Qed.

Definition no_pan {A} (r : out A) : Prop := forall p, r <> Pan p.

(** The degree bound of a graph no inserts overlapped on. *)
Lemma seq_slack P : params_ok P -> hp_m P + slack false <= mMax0 P.
Proof. intros HP. pose proof (pok_deg P HP). unfold slack, mMax0 in *. lia. Qed.

Section wf.
  Context (C : cparams) (n B : nat) (conc : bool).
  Notation P := (cp_h C).
  Context (HP : params_ok P) (Hcd : hp_m P + slack conc <= mMax0 P) (Hk : dim_ok (hp_dist P) n) (HB : B <= cp_fuel C) (HB64 : (N.of_nat B < 2 ^ 64)%N).

  Definition okd (v : fvec) : Prop := length v = n.
  Definition below : gset N := list_to_set (N.of_nat <$> seq 0 B).
  Lemma below_in id : (id < N.of_nat B)%N -> id ∈ below.
  Proof using. clear HB HB64 HP Hcd Hk. intros H. apply elem_of_list_to_set, elem_of_list_fmap. exists (N.to_nat id). split; [lia|]. apply elem_of_seq. lia. Qed.
  Lemma below_size : size below <= B.
  Proof using.
    clear HB HB64 HP Hcd Hk.
    unfold below. etrans; [|apply Nat.eq_le_incl, (seq_length B 0)]. rewrite <- (fmap_length N.of_nat (seq 0 B)).
    generalize (N.of_nat <$> seq 0 B). intros l. induction l as [|x l IH]; cbn [list_to_set]; [by rewrite size_empty|].
    rewrite size_union_alt, size_singleton. cbn. etrans; [|apply le_n_S, IH]. apply le_n_S, subseteq_size. set_solver.
  Qed.

  (** The index is well formed (with the bounds of overlapping inserts if
      [conc]) and its ids have been handed out. *)
  Record WfI (s : st) : Prop := MkWf {
    wf_inv : Inv P conc okd below s;
    wf_un : unlocked s;
    wf_id : forall id, is_Some (nodes s !! id) -> (id < cnt s)%N;
    wf_al : aligned s
  }.
  Lemma WfI_empty : WfI empty_st.
  Proof using. split; [|done|intros id [v Hv]; done|intros id [v Hv]; done]. split; try done. intros m [v Hv]. done. Qed.
  Lemma WfI_same s s' : nodes s' = nodes s -> ep s' = ep s -> maxl s' = maxl s -> (once s' = true -> once s = true) -> (cnt s <= cnt s')%N ->
    deleted s ⊆ deleted s' -> (forall k, is_Some (objs s !! k) -> is_Some (objs s' !! k)) -> (forall k, is_Some (vecs s !! k) -> is_Some (vecs s' !! k)) ->
    WfI s -> WfI s'.
  Proof using.
    clear HP Hcd Hk HB HB64. intros E1 E2 E3 E4 Hc E5 E6 E7 [H1 H2 H3 H4]. split.
    - by eapply Inv_same.
    - unfold unlocked. by rewrite E1.
    - intros id. rewrite E1. intros Hid%H3. by eapply N.lt_le_trans.
    - intros id. rewrite E1. intros Hid Hd. destruct (H4 id Hid) as [? ?]; [set_solver|]. split; [by apply E6|by apply E7].
  Qed.

  (** What is submitted: the embedder answers, every vector has dimension [n]. *)
  Definition one_dim (o : object) : Prop :=
    no_pan (embed_objects C [o]) /\ forall os o', embed_objects C [o] = Val os -> o' ∈ os -> length (vec_or_nil o') = n.

  Lemma wf_dist v1 v2 : okd v1 -> okd v2 -> exists d, dist P v1 v2 = Val d.
  Proof using Hk. intros H1 H2. by eapply dist_total. Qed.

  Lemma check_mappings_no_pan i p ms : no_pan (check_mappings i p ms).
  Proof. induction ms as [|m ms IH]; cbn [check_mappings]; [done|]. destruct (p !! m); [apply IH|done]. Qed.
  Lemma validate_no_pan i os : no_pan (validate_objects C i os).
  Proof.
    revert i. induction os as [|o os IH]; intros i; cbn [validate_objects]; [done|]. destruct (_ <? _); [done|].
    pose proof (check_mappings_no_pan i (o_props o) (cp_mappings C)) as H. destruct (check_mappings _ _ _); [apply IH|done|done].
  Qed.
  Lemma flush_wf io s s' r : wal_flush io s = (s', r) -> no_pan r /\ nodes s' = nodes s /\ ep s' = ep s /\ maxl s' = maxl s /\ once s' = once s /\ cnt s' = cnt s /\
    deleted s' = deleted s /\ objs s' = objs s /\ vecs s' = vecs s.
  Proof.
    unfold wal_flush. destruct (batch s); [by intros [<- <-]%pair_inj|]. destruct (in_order _ _); [|by intros [<- <-]%pair_inj].
    destruct io; by intros [<- <-]%pair_inj.
  Qed.
  Lemma ser_props_no_pan p : no_pan (ser_props (cp_json C) p).
  Proof. unfold ser_props. destruct (j_enc (cp_json C) p) as [js|] eqn:E; [|done]. pose proof (ser_props_eq _ _ _ E) as H. unfold ser_props in H. rewrite E in H. by rewrite H. Qed.

  Lemma wf_insert io level o s :
    WfI s -> (cnt s < N.of_nat B)%N -> one_dim o ->
    exists s' r, exec (CollModel.insert C 0 io level o) s = Some (s', r) /\ no_pan r /\ WfI s' /\ (cnt s' <= cnt s + 1)%N /\
      (forall id, is_Some (nodes s !! id) -> is_Some (nodes s' !! id)) /\ (forall o', r = Val o' -> is_Some (nodes s' !! o_id o')).
  Proof using HP Hcd Hk HB HB64.
    intros HW Hc [Hnp Hdim].
    set (goal := fun (s0 : st) (r0 : out object) => exists s' r, Some (s0, r0) = Some (s', r) /\ no_pan r /\ WfI s' /\ (cnt s' <= cnt s + 1)%N /\
      (forall id, is_Some (nodes s !! id) -> is_Some (nodes s' !! id)) /\ (forall o', r = Val o' -> is_Some (nodes s' !! o_id o'))).
    assert (Hstop : forall s2 (r : out object), WfI s2 -> nodes s2 = nodes s -> (cnt s2 <= cnt s + 1)%N -> no_pan r -> (forall o', r <> Val o') -> goal s2 r).
    { intros s2 r H2 E2 E3 Hr Hr2. exists s2, r. split_and!; [done..| |intros o' Ho; by destruct (Hr2 o')]. by rewrite E2. }
    assert (Hstay : forall r : out object, no_pan r -> (forall o', r <> Val o') -> goal s r) by (intros; apply Hstop; [done..|lia|done|done]).
 unfold CollModel.insert.
    rewrite exec_bind. unfold check_open. rewrite exec_act. destruct (closed s) eqn:Ecl; [by apply Hstay|].
    rewrite exec_bind, exec_lift. pose proof (validate_no_pan 0 [o]) as Hv. destruct (validate_objects C 0 [o]) as [u|e|z]; [|by apply Hstay|by destruct (Hv z)].
    rewrite exec_bind, exec_lift. destruct (embed_objects C [o]) as [os|e|z] eqn:Ee; [|by apply Hstay|by destruct (Hnp z)].
    pose proof (embed_length _ _ _ Ee) as Hlen. destruct os as [|o' [|? ?]]; [done| |done].
    specialize (Hdim _ o' eq_refl ltac:(by left)).
    rewrite exec_bind. unfold insert_one at 1. rewrite exec_bind. unfold fetch_and_inc. rewrite exec_act, Ecl.
    set (s1 := set_cnt _ _ s). assert (Hc1 : cnt s1 = (cnt s + 1)%N) by (cbn; apply u64_small; lia).
    assert (HW1 : WfI s1) by (eapply WfI_same; [..|exact HW]; try done; lia).
    rewrite exec_bind. unfold put_object. rewrite exec_bind, exec_lift. cbn [o_props o_id].
    pose proof (ser_props_no_pan (o_props o')) as Hsp.
    destruct (ser_props _ _) as [ob|e|z]; [|by apply Hstop; [..|lia| |]|by destruct (Hsp z)].
    rewrite exec_bind, exec_lift. rewrite ser_vec_eq. rewrite exec_bind, exec_act. unfold bc_put.
    destruct (cp_maxval C <? N.of_nat (length ob))%N; [by apply Hstop; [..|lia| |]|].
    change (closed s1) with (closed s). rewrite Ecl.
    set (s2 := set_objs _ s1).
    assert (HW2 : WfI s2).
    { eapply WfI_same; [..|exact HW1]; try done. intros k Hk1. cbn. apply lookup_insert_is_Some'. by right. }
    rewrite exec_act. destruct (_ <? _)%N; [by apply Hstop; [..|cbn in *; lia| |]|].
    change (closed s2) with (closed s). rewrite Ecl.
    set (s3 := set_vecs _ s2).
    assert (HW3 : WfI s3).
    { eapply WfI_same; [..|exact HW2]; try done. intros k Hk1. cbn. apply lookup_insert_is_Some'. by right. }
    rewrite exec_bind.
    destruct (seqc_insert P conc okd below 0 wf_dist Hcd (cp_fuel C) level (vec_or_nil o') (cnt s) s3) as (s4 & Hx & HI4 & Hun4 & Hext & Hfr & Hins & Honly).
    - apply (pok_efc P HP).
    - apply (wf_inv _ HW3).
    - apply (wf_un _ HW3).
    - done.
    - by apply below_in.
    - destruct (nodes s3 !! cnt s) as [v|] eqn:E; [|done]. pose proof (wf_id _ HW (cnt s)) as Hid. change (nodes s3) with (nodes s) in E. rewrite E in Hid.
      specialize (Hid ltac:(by eexists)). lia.
    - etrans; [apply below_size|exact HB].
    - rewrite Hx. change (exec (mret (Object (cnt s) (o_props o') (o_vec o'))) s4) with (Some (s4, Val (Object (cnt s) (o_props o') (o_vec o')))).
      cbv beta iota. rewrite exec_bind. unfold flush. rewrite exec_act.
      destruct Hfr as (Hdel&_&Hcnt&_&Hob&Hve&_&_).
      assert (HW4 : WfI s4).
      { split; [done..| |].
        - intros id Hid. rewrite Hcnt. change (cnt s3) with (cnt s1). rewrite Hc1.
          destruct (nodes s3 !! id) as [v|] eqn:E; [|rewrite (Honly id E Hid); lia]. pose proof (wf_id _ HW3 id) as H. rewrite E in H.
          specialize (H ltac:(by eexists)). change (cnt s3) with (cnt s1) in H. lia.
        - intros id Hid. rewrite Hdel, Hob, Hve. destruct (nodes s3 !! id) as [v|] eqn:E; [intros Hd; apply (wf_al _ HW3); [by rewrite E|done]|].
          rewrite (Honly id E Hid). intros _. cbn. rewrite !lookup_insert. split; by eexists. }
      assert (Hgrow : forall id, is_Some (nodes s !! id) -> is_Some (nodes s4 !! id)).
      { intros id [v Hv0]. destruct (Hext id v Hv0) as (v1 & Hv1 & _). by eexists. }
      destruct (wal_flush io s4) as [s5 r5] eqn:Ef. destruct (flush_wf _ _ _ _ Ef) as (Hnp5 & F1 & F2 & F3 & F4 & F5 & F6 & F7 & F8).
      assert (HW5 : WfI s5) by (eapply WfI_same; [..|exact HW4]; rewrite ?F4, ?F5, ?F6, ?F7, ?F8; done).
      assert (cnt s5 <= cnt s + 1)%N by (rewrite F5, Hcnt; change (cnt s3) with (cnt s1); lia).
      destruct r5 as [u5|e|z]; [| |by destruct (Hnp5 z)].
      + eexists s5, _. split; [done|]. split_and!; [done..| |]; rewrite F1; [done|]. intros o2 [= <-]. destruct Hins as (v & Hv0 & _). by eexists.
      + eexists s5, _. split; [done|]. split_and!; [done..| |done]. by rewrite F1.
  Qed.

  Lemma get_object_no_err s id : (cp_maxval C < 2 ^ 32)%N -> json_total (cp_json C) -> enc_ok C s -> no_pan (get_object (cp_json C) s id).
  Proof.
    intros Hm HJ He. destruct (closed s) eqn:Ecl.
    - unfold get_object. destruct (objs s !! id_key id); [by rewrite Ecl|done].
    - destruct (enc_get_object C s He Hm HJ Ecl id) as (x & -> & _). done.
  Qed.
  Lemma get_objects_no_pan s ids : (cp_maxval C < 2 ^ 32)%N -> json_total (cp_json C) -> enc_ok C s -> no_pan (get_objects (cp_json C) s ids).
  Proof.
    intros Hm HJ He. induction ids as [|id ids IH]; cbn [get_objects]; [done|]. pose proof (get_object_no_err s id Hm HJ He) as H.
    destruct (get_object _ s id) as [x|e|z]; [|done|by destruct (H z)]. cbn [mbind out_bind].
    destruct (get_objects _ s ids) as [x2|e|z]; [done|done|by destruct (IH z)].
  Qed.

  Lemma wf_delete f io id s :
    looked_up C s id f ->
    (cp_maxval C < 2 ^ 32)%N -> json_total (cp_json C) -> enc_ok C s -> WfI s -> (cnt s <= 2 ^ 64)%N -> (id < 2 ^ 64)%N ->
    exists s' r, exec (delete_found f io id) s = Some (s', r) /\ no_pan r /\ WfI s' /\ nodes s' = nodes s /\ cnt s' = cnt s.
  Proof using.
    clear HP Hcd Hk HB HB64. intros Hlk Hm HJ He HW Hcnt Hid. unfold delete_found. rewrite exec_bind, exec_act.
    assert (no_pan f) as Hg by (destruct Hlk; [by apply get_object_no_err|done..]).
    destruct f as [[o|]|e|z]; [|by eexists _, _..|by destruct (Hg z)].
    rewrite exec_bind. unfold delete_object. rewrite exec_act. destruct (closed s); [by eexists _, _|].
    set (s1 := set_objs _ s). rewrite exec_bind. unfold hnsw_delete. rewrite enc_delete_eq, exec_act.
    set (s2 := set_deleted _ _). unfold flush. rewrite exec_act. destruct (wal_flush io s2) as [s3 r] eqn:Ef.
    destruct (flush_wf _ _ _ _ Ef) as (Hnp & F1 & F2 & F3 & F4 & F5 & F6 & F7 & F8). exists s3, r. split_and!; [done|done| |by rewrite F1|by rewrite F5].
    assert (HW2 : WfI s2); [|by eapply WfI_same; [..|exact HW2]; rewrite ?F4, ?F5, ?F6, ?F7, ?F8].
    destruct HW as [H1 H2 H3 H4]. split; [by eapply Inv_same; [..|exact H1]|done..|].
    intros k Hk1 Hd. cbn in *. destruct (H4 k Hk1) as [Ho Hv]; [set_solver|]. split; [|done].
    rewrite lookup_delete_ne; [done|]. intros E. apply id_key_inj in E; [set_solver|lia|].
    specialize (H3 k Hk1). lia.
  Qed.

  (** A search of a filled index answers, and the answer is the one the hits say. *)
  Lemma wf_search o k s :
    (cp_maxval C < 2 ^ 32)%N -> json_total (cp_json C) -> enc_ok C s -> WfI s -> nodes s <> ∅ -> one_dim o -> (0 <= k)%Z ->
    exists r, exec (semantic_search C 0 o k) s = Some (s, r) /\ no_pan r /\
      (closed s = false -> (forall e, embed_objects C [o] <> Err e) -> exists m hs, r = Val (m, hs)).
  Proof using HP Hcd Hk HB HB64.
    intros Hm HJ He HW Hne [Hnp Hdim] Hk0. pose proof (wf_al _ HW) as Ha. unfold semantic_search. rewrite exec_bind. unfold check_open. rewrite exec_act.
    destruct (closed s) eqn:Ecl; [by eexists|].
    rewrite exec_bind, exec_lift. destruct (embed_objects C [o]) as [os|e|z] eqn:Ee; [|eexists; split_and!; [done|done|intros _ H; by destruct (H e)]|by destruct (Hnp z)].
    pose proof (embed_length _ _ _ Ee) as Hlen. destruct os as [|o' [|? ?]]; [done| |done]. specialize (Hdim _ o' eq_refl ltac:(by left)).
    rewrite exec_bind.
    destruct (seqc_search P conc okd below 0 wf_dist Hcd (cp_fuel C) (vec_or_nil o') k s) as (near & Hx & _); try done.
    - apply (pok_ef P HP).
    - apply (wf_inv _ HW).
    - apply (wf_un _ HW).
    - etrans; [apply below_size|exact HB].
    - rewrite Hx. set (es := take _ _) in *. clearbody es. rewrite exec_bind, exec_act.
      pose proof (search_found _ _ _ _ _ _ _ _ Hx) as Hf.
      assert (Hall : forall id, id ∈ e_id <$> es -> is_Some (objs s !! id_key id) /\ is_Some (vecs s !! id_key id)).
      { intros id Hid. apply elem_of_list_fmap in Hid as (e & -> & Hin). rewrite Forall_forall in Hf. destruct (Hf e Hin) as [(v & Hv & _) Hd].
        apply Ha; [by eexists|done]. }
      assert (Hval : exists os, get_objects (cp_json C) s (e_id <$> es) = Val os).
      { clear -Hm HJ He Ecl. induction (e_id <$> es) as [|id ids IH]; cbn [get_objects]; [by eexists|].
        destruct (enc_get_object C s He Hm HJ Ecl id) as (x & -> & _). destruct IH as (os & ->). by eexists. }
      destruct Hval as (os & Hos). rewrite Hos. pose proof (get_objects_all _ _ _ _ Hall Hos) as HF2.
      assert (Hp : exists hs, pair_results os es = Val hs).
      { clear -HF2. revert os HF2. induction es as [|e es IH]; intros os HF; inversion HF as [|? o2 ? os2 _ HF3]; subst; [by exists []|].
        cbn [pair_results]. destruct (IH _ HF3) as (hs & ->). by eexists. }
      destruct Hp as (hs & Hp). rewrite exec_bind, exec_lift, Hp. eexists. split; [done|]. split; [done|]. intros _ _. by eexists _, _.
  Qed.

  (** One call of a one-at-a-time use: the disk accepts the write, levels, floats
      and ids fit their fields, vectors have dimension [n], k is not negative. *)
  Definition tidy (c : call) : Prop :=
    match c with
    | CInsert io level o => io = true /\ insert_ok C level o /\ one_dim o
    | CDelete io id => io = true /\ (id < 2 ^ 64)%N
    | CSearch o k => one_dim o /\ (0 <= k)%Z
    | CGet _ | CSize | CUpdate _ | CClose => True
    | CBatch _ _ | CBatch2 _ _ => False
    end.
  (** The same without the disk: writes may fail. *)
  Definition calm1 (c : call) : Prop :=
    match c with
    | CInsert io level o => insert_ok C level o /\ one_dim o
    | CDelete io id => (id < 2 ^ 64)%N
    | CSearch o k => one_dim o /\ (0 <= k)%Z
    | CGet _ | CSize | CUpdate _ | CClose => True
    | CBatch _ _ | CBatch2 _ _ => False
    end.
  Lemma tidy_calm1 c : tidy c -> calm1 c.
  Proof using. destruct c; cbn; tauto. Qed.
  Definition tidy_ev (e : event) : Prop := match e with EvCall c _ => tidy c | EvRestart => True | EvCrash _ _ => False end.
  Definition is_search (c : call) : bool := match c with CSearch _ _ => true | _ => false end.
  (** Every search comes after an acknowledged insert. *)
  Definition fed_first (h : list event) : Prop :=
    forall h1 c r h2, h = h1 ++ EvCall c r :: h2 -> is_search c = true -> acked_ids h1 <> [].
  Definition reply_no_pan (r : reply) : Prop :=
    match r with
    | RIns r => no_pan r
    | RBatch r rs => no_pan r /\ Forall no_pan rs
    | RUnit r => no_pan r
    | RGet r => no_pan r
    | RSearch r => no_pan r
    | RSize r => no_pan r
    end.
  Definition ev_no_pan (e : event) : Prop := match e with EvCall _ r => reply_no_pan r | _ => True end.

  Definition is_delete (c : call) : bool := match c with CDelete _ _ => true | _ => false end.
  Lemma tidy_det s c s1 r1 s2 r2 : calm1 c -> is_delete c = false -> call_run C s c s1 r1 -> call_run C s c s2 r2 -> s1 = s2 /\ r1 = r2.
  Proof using. intros Ht Hnd H1 H2. inversion H1; subst; try done; inversion H2; subst; simplify_eq; done. Qed.

  Lemma tidy_quiet c r : tidy c -> (exists s s', call_run C s c s' r) -> reply_no_pan r -> quiet C (EvCall c r).
  Proof using.
    intros Ht (s & s' & Hr) Hn. inversion Hr; subst; try done; cbn in *; try tauto.
  Qed.

  Context (Hmax : (cp_maxval C < 2 ^ 32)%N) (Hdeg : (N.of_nat (Nat.max (hp_m P) (2 * hp_mMax P)) < 2 ^ 32)%N) (HJ : json_total (cp_json C)).

  Lemma wf_call c s :
    WfI s -> enc_ok C s -> (cnt s + N.of_nat (length (submitted c)) <= N.of_nat B)%N -> calm1 c -> (is_search c = true -> nodes s <> ∅) ->
    exists s' r, call_run C s c s' r /\ reply_no_pan r /\ WfI s' /\ (cnt s' <= cnt s + N.of_nat (length (submitted c)))%N /\
      (forall id, is_Some (nodes s !! id) -> is_Some (nodes s' !! id)) /\
      (forall o', o' ∈ acked (EvCall c r) -> is_Some (nodes s' !! o_id o')).
  Proof using HP Hcd Hk HB HB64 Hmax Hdeg HJ.
    intros HW He Hc Ht Hse. destruct c as [io level o|io ol|io ol|io id|ids|o k| |o| ]; try done; cbn [submitted length] in *.
    - destruct Ht as (Hi & Hd). destruct (wf_insert io level o s HW ltac:(lia) Hd) as (s' & r & Hx & Hnp & HW' & Hc' & Hg & Ha).
      exists s', (RIns r). split_and!; [by constructor|done|done|lia|done|]. intros o' Ho. destruct r as [o2|e|z]; cbn in Ho; [|set_solver..].
      apply elem_of_list_singleton in Ho as ->. by apply Ha.
    - cbn in Ht. rename Ht into Hid. destruct (wf_delete _ io id s (LookNow C s id) Hmax HJ He HW ltac:(lia) Hid) as (s' & r & Hx & Hnp & HW' & Hg & Hc').
      exists s', (RUnit r). split_and!; [by eapply RunDelete, Hx; constructor|done|done|lia|by rewrite Hg|cbn; set_solver].
    - eexists s, (RGet _). split; [by constructor; unfold CollModel.get; rewrite exec_act|].
      split_and!; [|done|lia|done|cbn; set_solver]. cbn. destruct (closed s); [done|]. by apply get_objects_no_pan.
    - destruct Ht as (Hd & Hk0). destruct (wf_search o k s Hmax HJ He HW (Hse eq_refl) Hd Hk0) as (r & Hx & Hnp & _).
      exists s, (RSearch r). split_and!; [by constructor|done|done|lia|done|cbn; set_solver].
    - eexists s, (RSize _). split; [by constructor; unfold get_size; rewrite exec_act|].
      split_and!; [|done|lia|done|cbn; set_solver]. cbn. by destruct (closed s).
    - eexists s, (RUnit _). split; [by constructor; unfold CollModel.update, check_open; rewrite exec_act|].
      split_and!; [|done|lia|done|cbn; set_solver]. cbn. by destruct (closed s).
    - destruct (closed s) eqn:Ecl; (eexists _, (RUnit _); split; [constructor; unfold CollModel.close; rewrite exec_act, Ecl; reflexivity|]);
        cbn; (split_and!; [done| |lia|done|set_solver]); [done|]. by eapply WfI_same; [..|exact HW].
  Qed.

  Lemma wf_run c s s' r :
    WfI s -> enc_ok C s -> (cnt s + N.of_nat (length (submitted c)) <= N.of_nat B)%N -> calm1 c -> (is_search c = true -> nodes s <> ∅) ->
    call_run C s c s' r ->
    reply_no_pan r /\ WfI s' /\ (cnt s' <= cnt s + N.of_nat (length (submitted c)))%N /\
      (forall id, is_Some (nodes s !! id) -> is_Some (nodes s' !! id)) /\
      (forall o', o' ∈ acked (EvCall c r) -> is_Some (nodes s' !! o_id o')).
  Proof using HP Hcd Hk HB HB64 Hmax Hdeg HJ.
    intros HW He Hc Ht Hse Hr. destruct (is_delete c) eqn:Ed.
    - destruct c as [| | |io id| | | | | ]; try done. cbn in Ht. rename Ht into Hid. inversion Hr as [| | | | |io' id' f s1 r1 Hlk Hx| | | | |]; subst.
      cbn [submitted length] in *.
      destruct (wf_delete _ io id s Hlk Hmax HJ He HW ltac:(lia) Hid) as (s2 & r2 & Hx2 & Hnp & HW' & Hg & Hc').
      rewrite Hx in Hx2. apply Some_pair_inj in Hx2 as [<- <-].
      split_and!; [done|done|lia|by rewrite Hg|cbn; set_solver].
    - destruct (wf_call c s HW He Hc Ht Hse) as (s2 & r2 & Hr2 & H). by destruct (tidy_det _ _ _ _ _ _ Ht Ed Hr Hr2) as [-> ->].
  Qed.

  Lemma acked_ids_snoc h e : acked_ids (h ++ [e]) = acked_ids h ++ (o_id <$> acked e).
  Proof using. 
    unfold acked_ids. induction h as [|a h IH]; cbn in *; [by rewrite app_nil_r|]. rewrite fmap_app in IH. rewrite !fmap_app, <- app_assoc. f_equal. exact IH.
  Qed.
  Lemma fed_first_snoc h e : fed_first (h ++ [e]) -> fed_first h.
  Proof using. intros H h1 c r h2 ->. apply (H h1 c r (h2 ++ [e])). by rewrite <- app_assoc. Qed.

  Lemma hist_tidy h s :
    hist C empty_st h s -> Forall tidy_ev h -> fed_first h -> hist_inserts h <= B -> log_small C h s ->
    WfI s /\ Forall (quiet C) h /\ Forall ev_no_pan h /\ (cnt s <= N.of_nat (hist_inserts h))%N /\
    (forall id, id ∈ acked_ids h -> is_Some (nodes s !! id)).
  Proof using HP Hcd Hk HB HB64 Hmax Hdeg HJ.
    intros Hh. induction Hh as [|h e s1 s2 Hh IH Hs]; intros Ht Hf Hn Hl.
    { split_and!; [apply WfI_empty|done|done|done|]. intros id Hid. by apply elem_of_nil in Hid. }
    apply Forall_app in Ht as [Ht He]. apply Forall_cons in He as [He _]. rewrite hist_inserts_snoc in Hn |- *.
    destruct IH as (HW & Hq & Hp & Hc & Ha); [done|by eapply fed_first_snoc|lia|by eapply log_small_snoc|].
    destruct (hist_quiet C Hmax Hdeg h s1 Hh Hq ltac:(lia) ltac:(by eapply log_small_snoc)) as (HI & _ & HQ & Hb).
    inversion Hs as [c s3 r Hr|s3 Hr|c m s3 s4 Hcut Hr]; subst; [| |done].
    - assert (Hen : enc_ok C s1) by (eapply hist_enc; [exact Hh|apply enc_empty]).
      assert (Hse : is_search c = true -> nodes s1 <> ∅).
      { intros E. specialize (Hf h c r [] eq_refl E). intros E2. destruct (acked_ids h) as [|i l]; [done|].
        destruct (Ha i ltac:(by left)) as [v Hv]. by rewrite E2 in Hv. }
      cbn [ev_inserts] in Hn |- *.
      destruct (wf_run c s1 _ _ HW Hen ltac:(lia) (tidy_calm1 _ He) Hse Hr) as (Hnp & HW' & Hc' & Hg & Hac).
      split_and!; [done| | |lia|].
      + apply Forall_app; split; [done|]. constructor; [|done]. apply tidy_quiet; [done|by eexists _, _|done].
      + apply Forall_app; split; [done|]. by constructor.
      + intros id. rewrite acked_ids_snoc, elem_of_app, elem_of_list_fmap. intros [Hid|(o' & -> & Ho)]; [by apply Hg, Ha|by apply Hac].
    - destruct (Q_restart C s1 s2 HI HQ Hb Hr) as (_ & _ & E1 & E2 & E3 & E4 & _).
      destruct (reopen_store _ _ Hr) as (R1&R2&R3&R4&_). cbn in R1, R2, R3, R4.
      rewrite R2, (si_file _ HI) in R1. apply Val_inj in R1.
      split_and!.
      + eapply WfI_same; [..|exact HW]; try done; rewrite ?E4, ?R3, ?R4, ?R1; try done. by rewrite (reopen_once _ _ Hr).
      + apply Forall_app; split; [done|]. by constructor.
      + apply Forall_app; split; [done|]. by constructor.
      + cbn. rewrite <- R1. lia.
      + intros id. rewrite acked_ids_snoc, app_nil_r, E1. apply Ha.
  Qed.
End wf.

(** ** A Delete cut short *)
Lemma one_thread {A} (p : prog st A) s s' ts : rtc mstep (s, [p]) (s', ts) ->
  s' = s \/ exists f s1 p1, p = Step f /\ f s = Some (s1, p1) /\ rtc mstep (s1, [p1]) (s', ts).
Proof.
  intros H. inversion H as [|m1 m2 m3 H1 H2]; subst; [by left|]. right. inversion H1 as [s0 ts0 i f s2 p2 Hi Hf]; subst.
  destruct i as [|i]; [|done]. apply (inj Some) in Hi as ->. by exists f, s2, p2.
Qed.
Lemma one_done {A} (r : out A) (s s' : st) ts : rtc mstep (s, [Done r]) (s', ts) -> s' = s.
Proof. intros H. apply one_thread in H as [->|(f & s1 & p1 & E & _)]; [done|discriminate E]. Qed.
Lemma one_act {A B} (f : st -> st * out A) (k : A -> prog st B) s s' ts : rtc mstep (s, [pbind (act f) k]) (s', ts) ->
  s' = s \/ match f s with (s1, Val a) => rtc mstep (s1, [k a]) (s', ts) | (s1, _) => s' = s1 end.
Proof.
  intros H. apply one_thread in H as [->|(g & s1 & p1 & E & Hg & H)]; [by left|right]. cbn in E. injection E as <-.
  destruct (f s) as [s2 r]. cbn in Hg. injection Hg as <- <-. destruct r as [a|e|z]; cbn in H; [done|by apply one_done in H..].
Qed.

(** The disk a crashed Delete leaves is that of one of three states: before the
    call, with the object gone, or after the call. *)
Lemma delete_cut_disk C io id s s1 m :
  batch s = [] -> numbered s -> (N.of_nat (length (log_view s)) + 2 < 2 ^ 64)%N -> call_cut C s (CDelete io id) s1 ->
  exists f t, disk_of (wal_flush_torn m s1) = disk_of t /\
    (t = s \/ t = set_objs (delete (id_key id) (objs s)) s \/ looked_up C s id f /\ exec (delete_found f true id) s = Some (t, Val tt)).
Proof.
  intros Hb Hnum Hl Hc.
  assert (H0 : forall t, batch t = [] -> disk_of (wal_flush_torn m t) = disk_of t).
  { intros t Ht. unfold disk_of, wal_flush_torn. cbn. rewrite Ht. cbn. by rewrite take_nil, app_nil_r. }
  inversion Hc as [| | | |io' id' f s2 ts Hlk Hx]; subst; [eexists (Val None), _; split; [by apply H0|by left]|]. exists f.
  unfold delete_found in Hx. apply one_act in Hx as [->|Hx]; [exists s; auto|]. cbn beta iota in Hx.
  destruct f as [[o|]|e|z] eqn:Eg; [|apply one_done in Hx as ->; exists s; auto..| |]; [|subst; exists s; auto..].
  apply one_act in Hx as [->|Hx]; [exists s; auto|]. cbn beta iota in Hx. destruct (closed s) eqn:Ecl; [subst; exists s; auto|].
  set (sb := set_objs (delete (id_key id) (objs s)) s) in *.
  unfold hnsw_delete in Hx. rewrite enc_delete_eq in Hx. apply one_act in Hx as [->|Hx]; [exists sb; split; [by apply H0|auto]|].
  cbn beta iota zeta in Hx. set (rec := _ :: le_put 8 id) in *. set (sc := set_deleted _ _) in *.
  assert (Hin : in_order (N.of_nat (length (wlog sc)) + 1) (batch sc) = true).
  { apply numbered_in_order.
    - pose proof (wal_rel_append rec sb) as (Hn & _). by apply Hn.
    - unfold log_view in *. cbn. rewrite app_length, fmap_length, app_length in *. rewrite Hb in *. cbn in *. lia. }
  assert (Hbc : exists x, batch sc = [(x, rec)]) by (eexists; cbn; by rewrite Hb).
  destruct Hbc as [x Hbc]. set (sd := set_wal [] (wseq sc) (wlog sc ++ (snd <$> batch sc)) sc).
  assert (Hfl : wal_flush true sc = (sd, Val tt)) by (unfold wal_flush, sd; rewrite Hin; by rewrite Hbc).
  assert (Hxd : exec (delete_found (Val (Some o)) true id) s = Some (sd, Val tt)).
  { unfold delete_found. rewrite exec_bind, exec_act, exec_bind. unfold delete_object. rewrite exec_act, Ecl, exec_bind. unfold hnsw_delete.
    rewrite enc_delete_eq, exec_act. unfold flush. rewrite exec_act. exact (f_equal Some Hfl). }
  assert (Hsc : exists t, disk_of (wal_flush_torn m sc) = disk_of t /\ (t = s \/ t = sb \/ looked_up C s id (Val (Some o)) /\ exec (delete_found (Val (Some o)) true id) s = Some (t, Val tt))).
  { destruct m as [|m].
    - exists sb. split; [|auto]. unfold disk_of, wal_flush_torn. cbn. by rewrite app_nil_r.
    - exists sd. split; [|auto]. unfold disk_of, wal_flush_torn, sd. cbn [wlog cfile objs vecs set_wal]. rewrite Hbc. cbn. by rewrite take_nil. }
  unfold flush in Hx. apply one_thread in Hx as [->|(g & s3 & p1 & E & Hg & Hx)]; [done|]. cbn in E. injection E as <-.
  destruct (wal_flush io sc) as [s4 r4] eqn:Ef. cbn in Hg. injection Hg as <- <-. apply one_done in Hx as ->. destruct io.
  - rewrite Hfl in Ef. apply pair_inj in Ef as [<- _]. exists sd. split; [|auto]. by apply H0.
  - unfold wal_flush in Ef. rewrite Hin, Hbc in Ef. apply pair_inj in Ef as [<- _]. done.
Qed.

(** ** What a hit must be *)
(** [h] reports one stored object: its properties, and the distance of its
    stored vector from the query [q]. *)
Definition true_hit (C : cparams) (s : st) (q : fvec) (h : hit) : Prop :=
  exists ob vb v, objs s !! id_key (h_id h) = Some ob /\ de_props (cp_json C) ob = Val (h_props h) /\
    vecs s !! id_key (h_id h) = Some vb /\ de_vec vb = Val v /\ dist (cp_h C) v q = Val (h_dist h).

Lemma search_true C s o k s' n hs :
  PInv s -> aligned s -> exec (semantic_search C 0 o k) s = Some (s', Val (n, hs)) ->
  exists o' es, embed_objects C [o] = Val [o'] /\
    exec (hnsw_search (cp_h C) 0 (cp_fuel C) (vec_or_nil o') k) s = Some (s, Val es) /\
    n = length hs /\ Forall2 (hit_of C s) es hs /\ Forall (true_hit C s (vec_or_nil o')) hs.
Proof.
  intros (os & b & HW) Ha Hx. destruct (search_aligned _ _ _ _ _ _ _ Ha Hx) as (o' & es & He & Hs & Hn & HF).
  exists o', es. split_and!; [done..|]. apply search_found in Hs. clear Hx He Hn Ha. induction HF as [|e h es hs Hh HF IH]; [constructor|].
  apply Forall_cons in Hs as [[(v & Hv & Hd) _] Hs]. constructor; [|by apply IH]. destruct Hh as (E1 & E2 & ob & Hob & Hp).
  assert (Hn : p_n (pview s) !! e_id e = Some (v_conns v, v_vec v)) by (cbn; rewrite lookup_fmap, Hv; done).
  destruct (pw_vec _ _ _ _ HW _ _ _ Hn) as (vb & Hvb & Hser & Hok). cbn in Hvb. exists ob, vb, (v_vec v). rewrite E1, E2. split_and!; try done.
  pose proof (de_ser_vec _ [] vb Hok Hser) as Ed. by rewrite app_nil_r in Ed.
Qed.

Section crash.
  Context (C : cparams) (n B : nat).
  Notation P := (cp_h C).
  Context (HP : params_ok P) (Hk : dim_ok (hp_dist P) n) (HB : B <= cp_fuel C) (HB64 : (N.of_nat B < 2 ^ 64)%N).
  Context (Hmax : (cp_maxval C < 2 ^ 32)%N) (Hdeg : (N.of_nat (Nat.max (hp_m P) (2 * hp_mMax P)) < 2 ^ 32)%N) (HJ : json_total (cp_json C)).

  Lemma tidy_fed c : tidy C n c -> call_fed C c.
  Proof using.
    intros Ht.
    assert (H0 : forall os, embed_objects C [] = Val os -> Forall (fun o => floats_ok (vec_or_nil o)) os).
    { intros os He%embed_length. destruct os; [constructor|done]. }
    destruct c as [io level o|io ol|io ol|io id|ids|o k| |o| ]; try done; try (by split_and!; [constructor|apply H0|]).
    - destruct Ht as (_ & (Hl & Hf) & _). split_and!; [by repeat constructor| |done]. intros os He. cbn in He. apply Forall_forall. intros o' Ho. by eapply Hf.
    - destruct Ht as (_ & Hid). split_and!; [constructor|apply H0|done].
  Qed.
  Lemma tidy_ev_fed h : Forall (tidy_ev C n) h -> Forall (ev_fed C) h.
  Proof using. intros H. eapply Forall_impl; [exact H|]. intros [c r| |c m]; [apply tidy_fed|done|done]. Qed.

  (** A Delete that crashed after a history of tidy calls: the collection opens,
      its graph is whole, and only [id] may have lost its object. *)
  Lemma crash_delete h s io id s1 m :
    hist C empty_st h s -> Forall (tidy_ev C n) h -> fed_first h -> hist_inserts h <= B -> log_small C h s ->
    (N.of_nat (length (log_view s)) + 2 < 2 ^ 64)%N -> (id < 2 ^ 64)%N -> call_cut C s (CDelete io id) s1 ->
    exists s', reopen (disk_of (wal_flush_torn m s1)) = Val s' /\ nodes s' = nodes s /\ PInv s' /\ enc_ok C s' /\
      (is_Some (objs s' !! id_key id) \/ gone (wlog s') id -> WfI C n B false s').
  Proof using HP Hk HB HB64 Hmax Hdeg HJ.
    intros Hh Ht Hff Hn Hls Hl Hid Hcut.
    destruct (hist_tidy C n B false HP (seq_slack P HP) Hk HB HB64 Hmax Hdeg HJ h s Hh Ht Hff Hn Hls) as (HW & Hq & _ & Hc & _).
    destruct (hist_quiet C Hmax Hdeg h s Hh Hq ltac:(lia) Hls) as (HI & _ & HQ & Hb).
    assert (Hen : enc_ok C s) by (eapply hist_enc; [exact Hh|apply enc_empty]).
    destruct (delete_cut_disk C io id s s1 m Hb (q_num _ _ HQ) Hl Hcut) as (f & t & Et & Htc).
    assert (Htq : QInv C t /\ batch t = [] /\ open_counter (cfile t) = Val (cnt t) /\ nodes t = nodes s /\ ep t = ep s /\ maxl t = maxl s /\ cnt t = cnt s /\
      deleted s ⊆ deleted t /\ vecs t = vecs s /\ (forall k, k <> id_key id -> is_Some (objs s !! k) -> is_Some (objs t !! k))).
    { destruct Htc as [-> |[-> |[Hlk Hx]]].
      - split_and!; try done. apply (si_file _ HI).
      - split_and!; try done; [|apply (si_file _ HI)|].
        + eapply QInv_same; [..|exact HQ]; try done. apply (q_num _ _ HQ).
        + intros k Hne Hk0. cbn. by rewrite lookup_delete_ne.
      - assert (Hlen : (N.of_nat (length (log_view t)) + 1 < 2 ^ 64)%N /\ open_counter (cfile t) = Val (cnt t) /\ nodes t = nodes s /\ ep t = ep s /\ maxl t = maxl s /\ cnt t = cnt s /\
          deleted s ⊆ deleted t /\ vecs t = vecs s /\ (forall k, k <> id_key id -> is_Some (objs s !! k) -> is_Some (objs t !! k))).
        { unfold delete_found in Hx. rewrite exec_bind, exec_act in Hx. destruct f as [[o|]|e|z]; [| |done..].
          2:{ apply Some_pair_inj in Hx as [<- _]. split_and!; try done; [lia|apply (si_file _ HI)]. }
          rewrite exec_bind in Hx. unfold delete_object in Hx. rewrite exec_act in Hx. destruct (closed s); [done|].
          rewrite exec_bind in Hx. unfold hnsw_delete in Hx. rewrite enc_delete_eq, exec_act in Hx. cbv beta iota zeta in Hx.
          set (s2 := set_deleted _ _) in Hx. unfold flush in Hx. rewrite exec_act in Hx.
          destruct (wal_flush true s2) as [s3 r3] eqn:Ef. apply Some_pair_inj in Hx as [<- ->].
          destruct (flush_wf _ _ _ _ Ef) as (_ & F1 & F2 & F3 & F4 & F5 & F6 & F7 & F8).
          assert (Hcf : cfile s3 = cfile s2 /\ log_view s3 = log_view s2).
          { unfold wal_flush in Ef. destruct (batch s2) as [|x b] eqn:Eb; [by apply pair_inj in Ef as [<- _]|]. rewrite <- Eb in Ef.
            destruct (in_order _ _); apply pair_inj in Ef as [<- _]; [|done]. split; [done|]. unfold log_view. cbn. by rewrite app_nil_r. }
          destruct Hcf as [Ecf Elv].
          rewrite Ecf, F1, F2, F3, F5, F6, F7, F8, Elv. split_and!; try done.
          - unfold log_view in *. cbn. rewrite app_length, fmap_length, app_length in *. cbn. lia.
          - apply (si_file _ HI).
          - cbn. set_solver.
          - intros k Hne Hk0. cbn. by rewrite lookup_delete_ne. }
        destruct Hlen as (Hlen & Hrest). destruct (Q_delete C Hmax Hdeg f id s t (Val tt) HQ Hb Hid Hlen Hx) as [HQt Hbt]. split; [done|]. split; [done|]. exact Hrest. }
    destruct Htq as (HQt & Hbt & Hft & E1 & E2 & E3 & E4 & E5 & E6 & E7).
    destruct (reopen_restores t _ (QInv_restorable _ _ HQt Hbt) Hft) as (s' & Hr & F1 & F2 & F3 & F4 & F5).
    pose proof (reopen_store _ _ Hr) as (R1&R2&R3&R4&R5&R6&R7&R8&R9). cbn in R1, R2, R3, R4, R8. rewrite <- Et in Hr.
    assert (Hh' : hist C empty_st (h ++ [EvCrash (CDelete io id) m]) s') by (econstructor; [exact Hh|by econstructor]).
    assert (HPI : PInv s').
    { eapply (hist_par C Hmax Hdeg); [exact Hh'| |].
      - apply Forall_app; split; [by apply tidy_ev_fed|]. constructor; [|done]. split_and!; [constructor| |done].
        intros os He%embed_length. destruct os; [constructor|done].
      - rewrite hist_inserts_snoc. cbn. lia. }
    exists s'. split; [done|]. split; [congruence|]. split; [done|].
    split; [eapply hist_enc; [exact Hh'|apply enc_empty]|].
    intros Hor. rewrite R2, Hft in R1. apply Val_inj in R1.
    destruct HW as [W1 W2 W3 W4]. split.
    - eapply Inv_same; [..|exact W1]; rewrite ?F1, ?F2, ?F3; try done. by rewrite F5.
    - unfold unlocked. by rewrite F1, E1.
    - intros i. rewrite F1, E1, <- R1, E4. apply W3.
    - intros i. rewrite F1, E1, F4. intros Hi Hd. rewrite R4, E6.
      destruct (W4 i Hi) as [Ho Hv]; [set_solver|]. split; [|done].
      destruct (decide (i = id)) as [->|Hne].
      + destruct Hor as [Ho'|(r & He & Hin)]; [done|]. exfalso. apply Hd. rewrite <- F4.
        destruct HPI as (os & b & HPW). pose proof (pw_enc _ _ _ _ HPW) as Henc. cbn in Henc.
        assert (Hin2 : r ∈ log_view s') by (unfold log_view; set_solver).
        destruct (elem_enc _ _ _ Henc Hin2) as (o & Ho2 & Hin3). pose proof (pw_ok _ _ _ _ HPW) as Hok. rewrite Forall_forall in Hok.
        assert (o = WDelete id) as -> by (eapply enc_wop_inj; [by apply Hok|done|done|done]).
        pose proof (pw_del _ _ _ _ HPW) as Hdel. cbn in Hdel. rewrite <- Hdel. eapply wops_apply_gone; [apply (pw_app _ _ _ _ HPW)|by left].
      + rewrite R3. apply E7; [|done]. intros Ek. apply id_key_inj in Ek; [done| |done]. specialize (W3 i Hi). lia.
  Qed.
End crash.
