(** Histories of index calls made one after another, and what holds after
    every one of them. *)
From stdpp Require Import sorting.
From Verif Require Import GoBase FloatModel HeapModel ProgModel StateModel WalModel HnswModel CollModel
  ProofBase CodecProofs FloatProofs HeapProofs WpProofs HnswProofs IndexProofs StepProofs.
Open Scope nat_scope.

(** One call of the index.  [level] is the random level the call draws. *)
Inductive iop :=
| IInsert (level : nat) (vec : fvec) (id : N)
| IDelete (id : N)
| ISearch (q : fvec) (k : Z).

Definition iop_prog (P : hparams) (fuel : nat) (o : iop) : prog st (list elem) :=
  match o with
  | IInsert level vec id => hnsw_insert P 0 fuel level vec id;; mret []
  | IDelete id => hnsw_delete id;; mret []
  | ISearch q k => hnsw_search P 0 fuel q k
  end.

(** Every call runs to its end before the next one starts; the results of all
    calls.  None: a call waits for ever. *)
Fixpoint irun (P : hparams) (fuel : nat) (ops : list iop) (s : st) : option (st * list (out (list elem))) :=
  match ops with
  | [] => Some (s, [])
  | o :: ops' =>
      match exec (iop_prog P fuel o) s with
      | Some (s1, r) =>
          match irun P fuel ops' s1 with
          | Some (s2, rs) => Some (s2, r :: rs)
          | None => None
          end
      | None => None
      end
  end.

Lemma irun_app P fuel ops1 ops2 s :
  irun P fuel (ops1 ++ ops2) s =
    match irun P fuel ops1 s with
    | Some (s1, rs1) =>
        match irun P fuel ops2 s1 with
        | Some (s2, rs2) => Some (s2, rs1 ++ rs2)
        | None => None
        end
    | None => None
    end.
Proof.
  revert s. induction ops1 as [|o ops1 IH]; intros s; cbn [app irun].
  { by destruct (irun P fuel ops2 s) as [[]|]. }
  destruct (exec _ s) as [[s1 r]|]; [|done]. rewrite IH.
  destruct (irun P fuel ops1 s1) as [[s2 rs1]|]; [|done]. by destruct (irun P fuel ops2 s2) as [[]|].
Qed.

(** ** What a well-formed history is (independent of the index) *)
Definition iop_vecs (o : iop) : list fvec :=
  match o with IInsert _ v _ => [v] | ISearch q _ => [q] | IDelete _ => [] end.
Definition iop_ins (o : iop) : list N := match o with IInsert _ _ id => [id] | _ => [] end.
Definition iop_del (o : iop) : list N := match o with IDelete id => [id] | _ => [] end.
Definition hist_vecs (ops : list iop) : list fvec := mjoin (iop_vecs <$> ops).
Definition hist_ins (ops : list iop) : list N := mjoin (iop_ins <$> ops).
Definition hist_del (ops : list iop) : list N := mjoin (iop_del <$> ops).

(** Parameters with which the index is meant to work. *)
Record params_ok (P : hparams) : Prop := MkParamsOk {
  pok_m : 0 < hp_m P;
  pok_deg : hp_m P <= 2 * hp_mMax P;
  pok_efc : 0 < hp_efc P;
  pok_ef : 0 < hp_ef P
}.
(** The dimensions the distance function supports. *)
Definition dim_ok (k : dist_kind) (n : nat) : Prop :=
  match k with DotProduct => n mod 8 = 0 | Euclidean => True end.
(** Same dimension everywhere, no id inserted twice, searches only after the
    first insert. *)
Record hist_ok (P : hparams) (n : nat) (ops : list iop) : Prop := MkHistOk {
  hok_kind : dim_ok (hp_dist P) n;
  hok_dim : forall v, v ∈ hist_vecs ops -> length v = n;
  hok_ids : NoDup (hist_ins ops);
  hok_search : forall pre q k post, ops = pre ++ ISearch q k :: post -> hist_ins pre <> [] /\ (0 <= k)%Z
}.

Lemma hist_vecs_app a b : hist_vecs (a ++ b) = hist_vecs a ++ hist_vecs b.
Proof. unfold hist_vecs. by rewrite fmap_app, mjoin_app. Qed.
Lemma hist_ins_app a b : hist_ins (a ++ b) = hist_ins a ++ hist_ins b.
Proof. unfold hist_ins. by rewrite fmap_app, mjoin_app. Qed.
Lemma hist_del_app a b : hist_del (a ++ b) = hist_del a ++ hist_del b.
Proof. unfold hist_del. by rewrite fmap_app, mjoin_app. Qed.
Lemma hist_ins_in ops level v id : IInsert level v id ∈ ops -> id ∈ hist_ins ops.
Proof.
  intros H. unfold hist_ins. rewrite elem_of_list_join. exists [id]. split; [set_solver|].
  apply elem_of_list_fmap. by exists (IInsert level v id).
Qed.
Lemma hist_vecs_in ops o v : o ∈ ops -> v ∈ iop_vecs o -> v ∈ hist_vecs ops.
Proof.
  intros H Hv. unfold hist_vecs. rewrite elem_of_list_join. exists (iop_vecs o). split; [done|].
  apply elem_of_list_fmap. by exists o.
Qed.

Lemma hist_ok_prefix P n a b : hist_ok P n (a ++ b) -> hist_ok P n a.
Proof.
  intros [Hk Hd Hi Hs]. split; [done| | |].
  - intros v Hv. apply Hd. rewrite hist_vecs_app. set_solver.
  - rewrite hist_ins_app in Hi. by apply NoDup_app in Hi as [? _].
  - intros pre q k post ->. apply (Hs pre q k (post ++ b)). by rewrite <- app_assoc.
Qed.

Lemma dist_total P n v1 v2 :
  dim_ok (hp_dist P) n -> length v1 = n -> length v2 = n -> exists d, dist P v1 v2 = Val d.
Proof.
  unfold dist, dist_func, dim_ok. destruct (hp_dist P); intros Hn H1 H2.
  - rewrite dot_mult8 by congruence. by eexists.
  - apply euclidean_total. lia.
Qed.

(** ** Entry point of one insert *)
Section entry.
  Context (P : hparams) (t fuel : nat).
  Lemma insert_entry level vec id s s' r :
    exec (hnsw_insert P t fuel level vec id) s = Some (s', Val r) ->
    if once s then
      maxl s' = Nat.max (maxl s) level /\ once s' = true /\ ep s' = (if maxl s <? level then id else ep s)
    else if bool_decide (nodes s = ∅) then maxl s' = 0 /\ once s' = true /\ ep s' = id
    else maxl s' = Nat.max (maxl s) level /\ once s' = true /\ ep s' = (if maxl s <? level then id else ep s).
  Proof.
    intros Hx. unfold hnsw_insert in Hx.
    apply exec_bind_val in Hx as (s1 & first & Hfirst & Hx).
    unfold once_insert in Hfirst. rewrite enc_set_entry_eq, enc_add_vertex_eq in Hfirst. rewrite exec_act in Hfirst.
    assert (first = false -> ep s1 = ep s -> maxl s1 = maxl s -> once s1 = true ->
      maxl s' = Nat.max (maxl s) level /\ once s' = true /\ ep s' = (if maxl s <? level then id else ep s)) as Hrest.
    { intros -> Ee Em Eo. clear Hfirst.
      apply exec_bind_val in Hx as (s2 & [] & Hw & Hx). apply exec_bind_val in Hx as (s3 & [] & Ha & Hx).
      apply exec_bind_val in Hx as (s4 & [[epid epv] cur] & Hr & Hx).
      apply exec_bind_val in Hx as (s5 & d & Hd & Hx). rewrite exec_lift in Hd. apply Some_pair_inj in Hd as [<- _].
      apply exec_bind_val in Hx as (s6 & e & He & Hx). apply exec_bind_val in Hx as (s7 & [] & Hc & Hx).
      assert (keep_entry s1 s2) as K2.
      { eapply steps_exec; [..|exact Hw]; [done|by intros ??? (?&?&?) (?&?&?); repeat split; congruence|].
        apply steps_wal_write, keep_entry_rel. }
      unfold add_node in Ha. rewrite exec_act in Ha. apply Some_pair_inj in Ha as [<- _].
      unfold read_entry in Hr. rewrite exec_act in Hr. apply Some_pair_inj in Hr as [<- Hr].
      set (s2' := set_nodes _ s2) in *.
      assert (cur = maxl s2') as ->.
      { destruct (nodes s2' !! ep s2'); cbn [or_pan mbind out_bind] in Hr; [|done]. apply Val_inj in Hr. by injection Hr. }
      assert (keep_entry s2' s6) as K6.
      { eapply steps_exec; [..|exact He]; [done|by intros ??? (?&?&?) (?&?&?); repeat split; congruence|].
        apply steps_descend, keep_entry_rel. }
      assert (keep_entry s6 s7) as K7.
      { eapply steps_exec; [..|exact Hc]; [done|by intros ??? (?&?&?) (?&?&?); repeat split; congruence|].
        apply steps_construct, keep_entry_rel. }
      destruct K2 as (A1 & A2 & A3), K6 as (B1 & B2 & B3), K7 as (C1 & C2 & C3). cbn [ep maxl once s2' set_nodes] in *.
      unfold raise_entry in Hx. rewrite enc_set_entry_eq, exec_act in Hx.
      rewrite A2, Em in Hx. destruct (maxl s <? level) eqn:El; apply Some_pair_inj in Hx as [<- _]; cbn.
      - apply Nat.ltb_lt in El. split_and!; [lia|congruence|done].
      - apply Nat.ltb_ge in El. split_and!; [rewrite C2, B2, A2, Em; lia|congruence|congruence]. }
    destruct (once s) eqn:Eo.
    - apply Some_pair_inj in Hfirst as [<- Hf]. apply Val_inj in Hf. subst first. by apply Hrest.
    - cbn zeta in Hfirst. change (nodes (set_once true s)) with (nodes s) in Hfirst.
      destruct (bool_decide (nodes s = ∅)) eqn:Hn.
      + apply Some_pair_inj in Hfirst as [<- Hf]. apply Val_inj in Hf. subst first. cbn in Hx.
        apply Some_pair_inj in Hx as [<- _]. done.
      + apply Some_pair_inj in Hfirst as [<- Hf]. apply Val_inj in Hf. subst first. by apply Hrest.
  Qed.
End entry.

(** ** The invariant of a history *)
Section hist.
  Context (P : hparams) (okv : fvec -> Prop) (U : gset N) (fuel : nat).
  Context (Hdist : forall v1 v2, okv v1 -> okv v2 -> exists d, dist P v1 v2 = Val d).
  Context (HP : params_ok P) (Hfuel : size U <= fuel).

  Record HInv (ops : list iop) (s : st) : Prop := MkHInv {
    hi_inv : Inv P false okv U s;
    hi_un : unlocked s;
    hi_back : forall id v, nodes s !! id = Some v ->
      exists level, IInsert level (v_vec v) id ∈ ops /\ (length (v_conns v) = 1 \/ length (v_conns v) = S level);
    hi_fwd : forall level vec id, IInsert level vec id ∈ ops -> inserted id vec level s;
    hi_del : deleted s = list_to_set (hist_del ops);
    hi_top : forall id v, nodes s !! id = Some v -> length (v_conns v) <= S (maxl s)
  }.

  Lemma HInv_empty : HInv [] empty_st.
  Proof.
    split; try done.
    - split; try done. intros n [v Hv]. done.
    - by intros level vec id ?%elem_of_nil.
  Qed.

  Lemma HInv_nonempty ops s : HInv ops s -> hist_ins ops <> [] -> nodes s <> ∅.
  Proof using. clear Hdist HP Hfuel.
    intros HI Hne E. destruct (hist_ins ops) as [|id l] eqn:Ei; [done|].
    assert (id ∈ hist_ins ops) as Hid by (rewrite Ei; set_solver).
    unfold hist_ins in Hid. apply elem_of_list_join in Hid as (x & Hx & Hin).
    apply elem_of_list_fmap in Hin as (o & -> & Ho). destruct o as [level vec id'| |]; cbn in Hx; try by apply elem_of_nil in Hx.
    destruct (hi_fwd _ _ HI _ _ _ Ho) as (v & Hv & _). by rewrite E in Hv.
  Qed.

  Lemma HInv_insert ops s level vec id :
    HInv ops s -> okv vec -> id ∈ U -> id ∉ hist_ins ops ->
    exists s', exec (hnsw_insert P 0 fuel level vec id) s = Some (s', Val tt) /\ HInv (ops ++ [IInsert level vec id]) s'.
  Proof using Hdist HP Hfuel.
    intros [HI Hun Hb Hf Hd Ht] Hv HU Hnew.
    assert (nodes s !! id = None) as Hnone.
    { destruct (nodes s !! id) as [v|] eqn:E; [|done]. destruct (Hb _ _ E) as (lv & Hin & _).
      destruct Hnew. by eapply hist_ins_in. }
    destruct (seq_insert P okv U 0 Hdist (pok_deg P HP) fuel level vec id s) as (s' & Hx & HI' & Hun' & Hext & Hfr & Hins & Honly);
      try done; [apply (pok_efc P HP)|].
    exists s'. split; [done|]. split; try done.
    - intros k v Hk. destruct (decide (k = id)) as [->|Hne].
      + destruct Hins as (v' & Hk' & Hv' & Hl). rewrite Hk in Hk'. injection Hk' as <-. exists level. rewrite Hv'.
        split; [set_solver|done].
      + destruct (nodes s !! k) as [v0|] eqn:E0; [|by destruct Hne; apply Honly].
        destruct (Hext _ _ E0) as (v1 & E1 & Ev & El). rewrite Hk in E1. injection E1 as <-.
        destruct (Hb _ _ E0) as (lv & Hin & Hl). exists lv. rewrite Ev, El. split; [set_solver|done].
    - intros lv vc k Hin. apply elem_of_app in Hin as [Hin|Hin].
      + eapply inserted_ext; [exact Hext|]. by apply Hf.
      + apply elem_of_list_singleton in Hin. injection Hin as -> -> ->. done.
    - rewrite hist_del_app. cbn. rewrite app_nil_r. destruct Hfr as [-> _]. done.
    - assert (forall k v, nodes s' !! k = Some v -> k <> id -> exists v0, nodes s !! k = Some v0 /\ length (v_conns v) = length (v_conns v0)) as Hold.
      { intros k v Hk Hne. destruct (nodes s !! k) as [v0|] eqn:E0; [|by destruct Hne; apply Honly].
        destruct (Hext _ _ E0) as (v1 & E1 & Ev & El). rewrite Hk in E1. injection E1 as <-. eauto. }
      pose proof (insert_entry P 0 fuel level vec id s s' tt Hx) as He.
      assert (maxl s' = Nat.max (maxl s) level /\ once s' = true /\ ep s' = (if maxl s <? level then id else ep s) ->
        forall k v, nodes s' !! k = Some v -> length (v_conns v) <= S (maxl s')) as Hgo.
      { intros (Em & _ & _) k v Hk. destruct (decide (k = id)) as [->|Hne].
        - destruct Hins as (v' & Hk' & _ & Hl). rewrite Hk in Hk'. injection Hk' as <-. lia.
        - destruct (Hold k v Hk Hne) as (v0 & E0 & ->). specialize (Ht _ _ E0). lia. }
      destruct (once s); [by apply Hgo|]. case_bool_decide as En; [|by apply Hgo].
      destruct He as (Em & _ & Ee). intros k v Hk. rewrite Em. destruct (decide (k = id)) as [->|Hne].
      + destruct (inv_ep _ _ _ _ _ HI') as (v' & Hk' & Hl).
        { intros E. by rewrite E in Hk. }
        rewrite Ee, Hk in Hk'. injection Hk' as <-. lia.
      + destruct (Hold k v Hk Hne) as (v0 & E0 & _). by rewrite En in E0.
  Qed.

  Lemma HInv_delete ops s id :
    HInv ops s -> exists s', exec (hnsw_delete id) s = Some (s', Val tt) /\ HInv (ops ++ [IDelete id]) s' /\
      nodes s' = nodes s /\ ep s' = ep s /\ maxl s' = maxl s.
  Proof using. clear Hdist HP Hfuel.
    intros [HI Hun Hb Hf Hd Ht]. unfold hnsw_delete. rewrite enc_delete_eq, exec_act. eexists. split; [reflexivity|].
    split; [|done]. split; try done; cbn.
    - eapply Inv_same; [..|exact HI]; done.
    - intros k v Hk. destruct (Hb k v Hk) as (lv & Hin & Hl). exists lv. split; [set_solver|done].
    - intros lv vc k Hin. apply elem_of_app in Hin as [Hin|Hin]; [by apply Hf|]. by apply elem_of_list_singleton in Hin.
    - rewrite hist_del_app. cbn. rewrite list_to_set_app_L, Hd. cbn. set_solver.
  Qed.

  (** What a search answers, in a state reached by a history. *)
  Lemma HInv_search ops s q k :
    HInv ops s -> okv q -> hist_ins ops <> [] -> (0 <= k)%Z ->
    exists near, exec (hnsw_search P 0 fuel q k) s =
        Some (s, Val (take (Z.to_nat k) (filter (live (deleted s)) (drain (length near) (new_min_heap near))))) /\
      near <> [] /\ length near <= hp_ef P /\ NoDup (eids near) /\ Forall (evalid P q s 0) near.
  Proof using Hdist HP Hfuel.
    intros HI Hq Hne Hk. pose proof (HInv_nonempty _ _ HI Hne).
    apply (seq_search P okv U 0 Hdist (pok_deg P HP)); try done; [apply (pok_ef P HP)|apply (hi_inv _ _ HI)|apply (hi_un _ _ HI)].
  Qed.

  Lemma HInv_search_same ops s q k : HInv ops s -> HInv (ops ++ [ISearch q k]) s.
  Proof using. clear Hdist HP Hfuel.
    intros [HI Hun Hb Hf Hd Ht]. split; try done.
    - intros i v Hi. destruct (Hb i v Hi) as (lv & Hin & Hl). exists lv. split; [set_solver|done].
    - intros lv vc i Hin. apply elem_of_app in Hin as [Hin|Hin]; [by apply Hf|]. by apply elem_of_list_singleton in Hin.
    - rewrite hist_del_app. cbn. by rewrite app_nil_r.
  Qed.

  Definition is_val {A} (r : out A) : Prop := match r with Val _ => True | _ => False end.

  Lemma irun_HInv n pre ops s :
    hist_ok P n (pre ++ ops) ->
    (forall v, v ∈ hist_vecs ops -> okv v) -> (forall id, id ∈ hist_ins ops -> id ∈ U) ->
    HInv pre s ->
    exists s' rs, irun P fuel ops s = Some (s', rs) /\ length rs = length ops /\ Forall is_val rs /\ HInv (pre ++ ops) s'.
  Proof using Hdist HP Hfuel.
    revert pre s. induction ops as [|o ops IH]; intros pre s Hok Hvs HU HI.
    { exists s, []. rewrite app_nil_r. split_and!; [done|done|constructor|done]. }
    assert (exists s1 r, exec (iop_prog P fuel o) s = Some (s1, Val r) /\ HInv (pre ++ [o]) s1) as (s1 & r & Hx & HI1).
    { destruct o as [level vec id|id|q k]; cbn [iop_prog].
      - destruct (HInv_insert pre s level vec id) as (s1 & Hx & HI1); try done.
        + apply Hvs. eapply hist_vecs_in; [apply elem_of_list_here|]. cbn. set_solver.
        + apply HU. eapply hist_ins_in, elem_of_list_here.
        + pose proof (hok_ids _ _ _ Hok) as Hnd. rewrite hist_ins_app in Hnd. apply NoDup_app in Hnd as (_ & Hnd & _).
          intros Hin. apply (Hnd _ Hin). eapply hist_ins_in, elem_of_list_here.
        + exists s1, []. split; [|done]. by rewrite exec_bind, Hx.
      - destruct (HInv_delete pre s id HI) as (s1 & Hx & HI1 & _). exists s1, []. split; [|done]. by rewrite exec_bind, Hx.
      - destruct (hok_search _ _ _ Hok pre q k ops eq_refl) as [Hne Hk].
        destruct (HInv_search pre s q k HI) as (near & Hx & _); try done.
        + apply Hvs. eapply hist_vecs_in; [apply elem_of_list_here|]. cbn. set_solver.
        + eexists s, _. split; [exact Hx|]. by apply HInv_search_same. }
    destruct (IH (pre ++ [o]) s1) as (s' & rs & Hr & Hlen & Hall & HI'); try done.
    - by rewrite <- app_assoc.
    - intros v Hv. apply Hvs. change (o :: ops) with ([o] ++ ops). rewrite hist_vecs_app. set_solver.
    - intros v Hv. apply HU. change (o :: ops) with ([o] ++ ops). rewrite hist_ins_app. set_solver.
    - exists s', (Val r :: rs). cbn [irun]. rewrite Hx, Hr. split_and!; [done|cbn; lia|by constructor|].
      by rewrite <- app_assoc in HI'.
  Qed.
End hist.

(** The history that starts with a new index. *)
Lemma irun_new P n (okv : fvec -> Prop) fuel ops :
  params_ok P -> hist_ok P n ops ->
  (forall v1 v2, okv v1 -> okv v2 -> exists d, dist P v1 v2 = Val d) ->
  (forall v, v ∈ hist_vecs ops -> okv v) -> length (hist_ins ops) <= fuel ->
  exists s rs, irun P fuel ops empty_st = Some (s, rs) /\ length rs = length ops /\ Forall is_val rs /\
    HInv P okv (list_to_set (hist_ins ops)) ops s /\ size (list_to_set (hist_ins ops) : gset N) <= fuel.
Proof.
  intros HP Hok Hd Hv Hf.
  assert (size (list_to_set (hist_ins ops) : gset N) <= fuel) as Hs.
  { rewrite size_list_to_set by apply (hok_ids _ _ _ Hok). done. }
  destruct (irun_HInv P okv (list_to_set (hist_ins ops)) fuel Hd HP Hs n [] ops empty_st) as (s & rs & H1 & H2 & H3 & H4); try done.
  - intros id Hid. by apply elem_of_list_to_set.
  - apply HInv_empty.
  - by exists s, rs.
Qed.
