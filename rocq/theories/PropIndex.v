(** Properties of the index used by one thread at a time: C16, C17, C22, C24,
    C25, C34 (first half). *)
From stdpp Require Import sorting.
From Verif Require Import GoBase FloatModel HeapModel ProgModel StateModel WalModel HnswModel CollModel DBModel
  ProofBase CodecProofs FloatProofs HeapProofs WpProofs HnswProofs IndexProofs StepProofs SeqLog IndexHist.
From Coq Require Import SpecFloat.
Open Scope nat_scope.

(** ** Small specifications *)
(** Every vertex and layer that is referred to exists. *)
Definition refs_ok (s : st) : Prop :=
  (forall id v l cs c, nodes s !! id = Some v -> v_conns v !! l = Some cs -> c ∈ cs ->
     exists w, nodes s !! c = Some w /\ l < length (v_conns w)) /\
  (nodes s <> ∅ -> exists v, nodes s !! ep s = Some v /\ length (v_conns v) = S (maxl s)).
(** Neighbour lists are at most this long. *)
Definition degree_ok (P : hparams) (s : st) : Prop :=
  forall id v l cs, nodes s !! id = Some v -> v_conns v !! l = Some cs ->
    length cs <= Nat.max (hp_m P) (if l =? 0 then 2 * hp_mMax P else hp_mMax P).
Definition no_mutex_held (s : st) : Prop := forall id v, nodes s !! id = Some v -> v_lock v = None.

(** No distance between vectors of the list is NaN. *)
Definition no_nan (P : hparams) (vs : list fvec) : Prop :=
  forall v w d, v ∈ vs -> w ∈ vs -> dist_func (hp_dist P) v w = Val d -> d <> S754_nan.
Definition not_further (a b : elem) : Prop := SFltb (e_dist b) (e_dist a) = false.

(** What a search may answer after the calls [ops]. *)
Record answer_ok (P : hparams) (ops : list iop) (q : fvec) (k : Z) (res : list elem) : Prop := MkAnswerOk {
  ans_k : (Z.of_nat (length res) <= k)%Z;
  ans_ef : length res <= hp_ef P;
  ans_sorted : StronglySorted not_further res;
  ans_distinct : NoDup (e_id <$> res);
  ans_stored : forall e, e ∈ res -> IDelete (e_id e) ∉ ops /\
    exists level v, IInsert level v (e_id e) ∈ ops /\ dist_func (hp_dist P) v q = Val (e_dist e)
}.

Lemma sublist_NoDup {A} (l1 l2 : list A) : l1 `sublist_of` l2 -> NoDup l2 -> NoDup l1.
Proof.
  induction 1 as [|x l1 l2 H IH|x l1 l2 H IH]; intros Hnd; [done|..]; inversion_clear Hnd as [|?? Hx Hnd']; [|auto].
  constructor; [|auto]. intros Hin. apply Hx. eapply elem_of_submseteq; [exact Hin|]. by apply sublist_submseteq.
Qed.
Lemma sublist_filter {A} (Q : A -> Prop) `{forall x, Decision (Q x)} (l : list A) : filter Q l `sublist_of` l.
Proof. induction l as [|x l IH]; [constructor|]. rewrite filter_cons. case_decide; by constructor. Qed.
Lemma num_nan d : d <> S754_nan <-> num d.
Proof. unfold num. by destruct d. Qed.
Lemma dims_total P n (vs : list fvec) :
  dim_ok (hp_dist P) n -> (forall v, v ∈ vs -> length v = n) ->
  forall v1 v2, v1 ∈ vs -> v2 ∈ vs -> exists d, dist P v1 v2 = Val d.
Proof. intros Hk Hd v1 v2 H1 H2. eapply dist_total; eauto. Qed.

(** ** C22 *)
Theorem C22_index_never_panics :
  forall P n fuel ops,
    params_ok P -> hist_ok P n ops -> length (hist_ins ops) <= fuel ->
    exists s rs, irun P fuel ops empty_st = Some (s, rs) /\ length rs = length ops /\
      Forall (fun r => match r with Val _ => True | _ => False end) rs /\
      refs_ok s /\ no_mutex_held s.
Proof.
  intros P n fuel ops HP Hok Hf.
  destruct (irun_new P n (fun v => v ∈ hist_vecs ops) fuel ops) as (s & rs & Hr & Hlen & Hall & HI & _); try done.
  { apply (dims_total P n); apply Hok. }
  exists s, rs. split_and!; try done; [|apply (hi_un _ _ _ _ _ HI)].
  pose proof (hi_inv _ _ _ _ _ HI) as HI'. split.
  - intros id v l cs c Hn Hl Hc. by eapply inv_conn.
  - apply (inv_ep _ _ _ _ _ HI').
Qed.
Print Assumptions C22_index_never_panics.

(** ** C24 *)
(** For every history whatsoever: any parameters, vectors, ids, fuel. *)
Lemma irun_J P lmax fuel ops s s' rs :
  (forall level v id, IInsert level v id ∈ ops -> level <= lmax) ->
  J P (fun _ => True) s -> irun P fuel ops s = Some (s', rs) -> J P (fun _ => True) s'.
Proof.
  revert s rs. induction ops as [|o ops IH]; intros s rs Hl HJ; cbn [irun]; [by intros [<- _]%Some_pair_inj|].
  destruct (exec (iop_prog P fuel o) s) as [[s1 r]|] eqn:Ex; [|done].
  destruct (irun P fuel ops s1) as [[s2 rs2]|] eqn:Er; [|done]. intros [<- _]%Some_pair_inj.
  eapply IH; [|clear Er|exact Er].
  { intros level v id Hin. apply (Hl level v id). by apply elem_of_list_further. }
  assert (tr P (fun _ => True) lmax (iop_prog P fuel o) (fun _ => True)) as Htr.
  { destruct o as [level v id|id|q k]; cbn [iop_prog].
    - eapply tr_bind; [apply tr_hnsw_insert; [done|]|intros _ _; by apply tr_ret].
      apply (Hl level v id). apply elem_of_list_here.
    - eapply tr_bind; [by apply tr_hnsw_delete|intros _ _; by apply tr_ret].
    - apply tr_hnsw_search. }
  by destruct (Htr _ _ _ HJ Ex).
Qed.

Theorem C24_neighbour_bounds :
  forall P fuel ops s rs, irun P fuel ops empty_st = Some (s, rs) -> degree_ok P s.
Proof.
  intros P fuel ops s rs Hr.
  set (lv := fun o => match o with IInsert level _ _ => level | _ => 0 end).
  assert (J P (fun _ => True) s) as HJ.
  { refine (irun_J P (max_list (lv <$> ops)) _ _ _ _ _ _ _ Hr); [|by intros k v Hv].
    intros level v id Hin. apply (max_list_elem_of_le level). apply elem_of_list_fmap. by exists (IInsert level v id). }
  intros id v l cs Hn Hl. destruct (HJ id v Hn) as [_ HV]. destruct (HV l cs Hl) as [Hb _].
  unfold bnd, mMax0 in Hb. destruct l; cbn [Nat.eqb]; done.
Qed.
Print Assumptions C24_neighbour_bounds.

(** With M <= 2*MMax the lists fit the buffer searchLayer allocates. *)
Theorem C24_fits_search_buffer_partial :
  forall P fuel ops s rs id v l cs,
    hp_m P <= 2 * hp_mMax P -> irun P fuel ops empty_st = Some (s, rs) ->
    nodes s !! id = Some v -> v_conns v !! l = Some cs -> length cs <= 2 * hp_mMax P.
Proof.
  intros P fuel ops s rs id v l cs Hm Hr Hn Hl. pose proof (C24_neighbour_bounds P fuel ops s rs Hr id v l cs Hn Hl).
  destruct (l =? 0); lia.
Qed.
Print Assumptions C24_fits_search_buffer_partial.

(** ** C34, sequential half *)
Theorem C34_entry_point_on_top_partial :
  forall P n fuel ops s rs,
    params_ok P -> hist_ok P n ops -> length (hist_ins ops) <= fuel ->
    irun P fuel ops empty_st = Some (s, rs) -> hist_ins ops <> [] ->
    exists v, nodes s !! ep s = Some v /\ length (v_conns v) = S (maxl s) /\
      forall id w, nodes s !! id = Some w -> length (v_conns w) <= length (v_conns v).
Proof.
  intros P n fuel ops s rs HP Hok Hf Hr Hne.
  destruct (irun_new P n (fun v => v ∈ hist_vecs ops) fuel ops) as (s' & rs' & Hr' & _ & _ & HI & _); try done.
  { apply (dims_total P n); apply Hok. }
  rewrite Hr in Hr'. apply Some_pair_inj in Hr' as [<- _].
  destruct (inv_ep _ _ _ _ _ (hi_inv _ _ _ _ _ HI)) as (v & Hv & Hl). { exact (HInv_nonempty _ _ _ _ _ HI Hne). }
  exists v. split_and!; [done|done|]. intros id w Hw. rewrite Hl. by apply (hi_top _ _ _ _ _ HI id).
Qed.
Print Assumptions C34_entry_point_on_top_partial.

(** ** C16 *)
Theorem C16_search_answers :
  forall P n fuel ops q k,
    params_ok P -> hist_ok P n (ops ++ [ISearch q k]) -> length (hist_ins ops) <= fuel ->
    no_nan P (q :: hist_vecs ops) ->
    exists s rs res, irun P fuel (ops ++ [ISearch q k]) empty_st = Some (s, rs ++ [Val res]) /\ answer_ok P ops q k res.
Proof.
  intros P n fuel ops q k HP Hok Hf Hnan.
  set (okv := fun v => v ∈ q :: hist_vecs ops).
  assert (forall v, v ∈ q :: hist_vecs ops -> length v = n) as Hdim.
  { intros v Hv. apply (hok_dim _ _ _ Hok). rewrite hist_vecs_app. cbn. set_solver. }
  assert (forall v1 v2, okv v1 -> okv v2 -> exists d, dist P v1 v2 = Val d) as Hdist.
  { intros v1 v2. apply (dims_total P n); [apply Hok|done]. }
  pose proof (hist_ok_prefix _ _ _ _ Hok) as Hok1.
  destruct (irun_new P n okv fuel ops HP Hok1 Hdist) as (s & rs & Hr & Hlen & Hall & HI & Hsz); [unfold okv; set_solver|done|].
  destruct (hok_search _ _ _ Hok ops q k [] eq_refl) as [Hne Hk].
  destruct (HInv_search P okv _ fuel Hdist HP Hsz ops s q k HI) as (near & Hx & Hnn & Hnl & Hnd & Hev); [unfold okv; set_solver|done|done|].
  set (res := take _ _) in Hx.
  exists s, rs, res. split. { rewrite irun_app, Hr. cbn [irun iop_prog]. by rewrite Hx. }
  pose proof (heap_init_perm min_less near) as Hperm.
  assert (drain (length near) (new_min_heap near) ≡ₚ near) as Hdr.
  { rewrite drain_perm; [done|]. unfold new_min_heap. by rewrite (Permutation_length Hperm). }
  assert (nonan P okv) as Hnn'.
  { intros v1 v2 d H1 H2 Hd. apply num_nan. exact (Hnan v1 v2 d H1 H2 Hd). }
  assert (Forall enum near) as Hnum.
  { eapply Forall_impl; [exact Hev|]. intros e. eapply evalid_num; [apply (hi_inv _ _ _ _ _ HI)|unfold okv; set_solver|done]. }
  assert (forall e, e ∈ res -> e ∈ near /\ live (deleted s) e) as Hin.
  { intros e He. unfold res in He. apply elem_of_take in He as (i & He & _).
    apply elem_of_list_lookup_2, elem_of_list_filter in He as [Hlv He]. by rewrite Hdr in He. }
  split.
  - unfold res. rewrite take_length. lia.
  - unfold res. rewrite take_length. etrans; [apply Nat.le_min_r|]. etrans; [apply filter_length|].
    by rewrite (Permutation_length Hdr).
  - unfold res. assert (StronglySorted nearer_eq (drain (length near) (new_min_heap near))) as Hss.
    { apply drain_sorted; [unfold new_min_heap; by rewrite Hperm|].
      apply (heap_init_ok min_less enum min_less_irr min_less_asym min_less_ntrans). done. }
    assert (forall l : list elem, StronglySorted nearer_eq l -> StronglySorted nearer_eq (filter (live (deleted s)) l)) as Hfs.
    { induction 1 as [|a l Hl IH Ha]; [constructor|]. rewrite filter_cons. case_decide; [|done]. constructor; [done|].
      apply Forall_forall. intros x [_ Hx']%elem_of_list_filter. rewrite Forall_forall in Ha. by apply Ha. }
    assert (forall m (l : list elem), StronglySorted nearer_eq l -> StronglySorted nearer_eq (take m l)) as Hts.
    { intros m l Hl. revert m. induction Hl as [|a l Hl IH Ha]; intros [|m]; cbn; try constructor; [apply IH|]. by apply Forall_take. }
    apply Hts, Hfs, Hss.
  - unfold res. rewrite fmap_take. eapply sublist_NoDup; [apply sublist_take|].
    assert (NoDup (e_id <$> drain (length near) (new_min_heap near))) as Hnd'.
    { rewrite Hdr. exact Hnd. }
    revert Hnd'. generalize (drain (length near) (new_min_heap near)). intros l Hl.
    eapply sublist_NoDup; [apply fmap_sublist, (sublist_filter (live (deleted s)))|]. exact Hl.
  - intros e He. destruct (Hin e He) as [Hen Hlv]. rewrite Forall_forall in Hev. destruct (Hev e Hen) as (v & Hv & _ & Hd).
    destruct (hi_back _ _ _ _ _ HI _ _ Hv) as (level & Hins & _). split; [|by exists level, (v_vec v)].
    intros Hdel. apply Hlv. rewrite (hi_del _ _ _ _ _ HI). apply elem_of_list_to_set. unfold hist_del.
    apply elem_of_list_join. exists [e_id e]. split; [set_solver|]. apply elem_of_list_fmap. by exists (IDelete (e_id e)).
Qed.
Print Assumptions C16_search_answers.

(** ** C17 *)
(** A well-formed index: what C22 and C24 establish for every history. *)
Record index_ok (P : hparams) (n : nat) (s : st) : Prop := MkIndexOk {
  iok_refs : refs_ok s;
  iok_deg : degree_ok P s;
  iok_dim : forall id v, nodes s !! id = Some v -> length (v_vec v) = n;
  iok_layers : forall id v, nodes s !! id = Some v -> v_conns v <> [];
  iok_once : once s = true -> nodes s <> ∅;
  iok_free : no_mutex_held s
}.
(** The vectors a search compares: the query and the stored ones. *)
Definition in_play (s : st) (q v : fvec) : Prop := v = q \/ exists id x, nodes s !! id = Some x /\ v = v_vec x.
Lemma index_ok_Inv P n s q :
  index_ok P n s -> Inv P false (fun v => length v = n /\ in_play s q v) (dom (nodes s)) s.
Proof.
  intros [[Hr1 Hr2] Hd Hv Hl Ho Hf]. split; try done.
  - intros id v l cs Hn Hc. specialize (Hd id v l cs Hn Hc). unfold degb, slack, max_conn, mMax0. destruct l; cbn in *; lia.
  - intros id v Hn. split; [by eapply Hv|]. right. by exists id, v.
  - intros id v Hn. specialize (Hl id v Hn). destruct (v_conns v); [done|cbn; lia].
  - intros id [v Hn]. by apply elem_of_dom_2 in Hn.
Qed.

(** [e] names a vertex of layer [l] with its distance from [q]. *)
Definition is_vertex (P : hparams) (s : st) (q : fvec) (l : nat) (e : elem) : Prop :=
  exists v, nodes s !! e_id e = Some v /\ l < length (v_conns v) /\ dist_func (hp_dist P) (v_vec v) q = Val (e_dist e).

Lemma min_exists (l : list elem) : l <> [] -> Forall enum l -> exists b, b ∈ l /\ forall e, e ∈ l -> fltb (e_dist e) (e_dist b) = false.
Proof.
  induction l as [|a l IH]; intros Hne Hn; [done|]. apply Forall_cons in Hn as [Ha Hn].
  destruct l as [|a' l].
  { exists a. split; [set_solver|]. intros e ->%elem_of_list_singleton. apply fltb_irrefl. }
  destruct IH as (b & Hb & Hmin); [done|done|]. pose proof Hn as Hn'. rewrite Forall_forall in Hn'.
  destruct (fltb (e_dist a) (e_dist b)) eqn:E.
  - exists a. split; [set_solver|]. intros e [->|He]%elem_of_cons; [apply fltb_irrefl|].
    apply (fltb_ntrans _ (e_dist b)); [by apply Hn'|by apply Hn'|done|by apply Hmin|by apply fltb_asym].
  - exists b. split; [set_solver|]. intros e [->|He]%elem_of_cons; [done|by apply Hmin].
Qed.

Theorem C17_layer_search_not_worse_than_start :
  forall P n s q eps ef l fuel,
    index_ok P n s -> dim_ok (hp_dist P) n -> hp_m P <= 2 * hp_mMax P -> length q = n ->
    (forall v w d, in_play s q v -> in_play s q w -> dist_func (hp_dist P) v w = Val d -> d <> S754_nan) ->
    eps <> [] -> length eps <= ef -> NoDup (e_id <$> eps) -> Forall (is_vertex P s q l) eps -> size (nodes s) <= fuel ->
    exists near best, exec (search_layer P 0 fuel q eps ef l) s = Some (s, Val near) /\
      length near <= ef /\ best ∈ near /\ Forall (is_vertex P s q l) near /\
      (forall e, e ∈ near -> not_further best e) /\ (forall e, e ∈ eps -> not_further best e).
Proof.
  intros P n s q eps ef l fuel Hok Hk Hm Hq Hnan Hne Hlen Hnd Hev Hf.
  set (okv := fun v : fvec => length v = n /\ in_play s q v).
  pose proof (index_ok_Inv _ _ _ q Hok) as HI.
  assert (okv q) as Hq' by (split; [done|by left]).
  assert (forall v1 v2, okv v1 -> okv v2 -> exists d, dist P v1 v2 = Val d) as Hdist.
  { intros v1 v2 [H1 _] [H2 _]. by eapply dist_total. }
  assert (1 <= ef) as Hef by (destruct eps; [done|cbn in Hlen; lia]).
  assert (size (dom (nodes s)) <= fuel) as Hf' by (by rewrite size_dom).
  destruct (seq_search_layer P okv (dom (nodes s)) 0 Hdist Hm fuel q eps ef l s HI (iok_free _ _ _ Hok) Hq' Hef Hne Hlen Hnd Hev Hf')
    as (near & Hx & Hnn & Hnl & Hnd' & Hnev & Hbest).
  assert (nonan P okv) as Hn.
  { intros v1 v2 d [_ H1] [_ H2] Hd. apply num_nan. exact (Hnan v1 v2 d H1 H2 Hd). }
  assert (forall es, Forall (evalid P q s l) es -> Forall enum es) as Hnum.
  { intros es Hes. eapply Forall_impl; [exact Hes|]. intros e. by apply (evalid_num P false okv (dom (nodes s))). }
  pose proof (Hnum _ Hnev) as Hnum1. pose proof (Hnum _ Hev) as Hnum2.
  destruct (min_exists near Hnn Hnum1) as (best & Hb & Hmin).
  exists near, best. split_and!; try done.
  intros e He. destruct (Hbest Hn e He) as (e' & He' & Hle). specialize (Hmin e' He').
  rewrite Forall_forall in Hnum1, Hnum2.
  apply (fltb_ntrans _ (e_dist e')); [by apply Hnum2|by apply Hnum1|by apply Hnum1|done|done].
Qed.
Print Assumptions C17_layer_search_not_worse_than_start.

(** ** C25 *)
Theorem C25_simple_selection :
  forall cands m, Forall (fun e => e_dist e <> S754_nan) cands ->
    exists chosen rest, cands ≡ₚ chosen ++ rest /\ select_simple cands m = Val (e_id <$> chosen) /\
      length chosen = Nat.min m (length cands) /\ StronglySorted not_further chosen /\
      forall c r, c ∈ chosen -> r ∈ rest -> not_further c r.
Proof.
  intros cands m Hnan. assert (Forall enum cands) as Hnum.
  { eapply Forall_impl; [exact Hnan|]. intros e. apply num_nan. }
  set (h := heap_init min_less cands). pose proof (heap_init_perm min_less cands) as Hp.
  assert (length h = length cands) as Hl by by apply Permutation_length.
  set (order := drain (length h) h). assert (order ≡ₚ cands) as Ho by (unfold order; by rewrite drain_perm).
  assert (StronglySorted nearer_eq order) as Hs.
  { apply drain_sorted; [unfold h; by rewrite Hp|].
    by apply (heap_init_ok min_less enum min_less_irr min_less_asym min_less_ntrans). }
  set (k := Nat.min m (length cands)).
  assert (take k order ++ drop k order = order) as Etd by apply take_drop.
  exists (take k order), (drop k order). split_and!.
  - by rewrite Etd.
  - unfold select_simple. fold h. rewrite pop_ids_drain by (unfold k in *; lia). by rewrite fmap_take.
  - rewrite take_length, (Permutation_length Ho). unfold k. lia.
  - rewrite <- Etd in Hs. revert Hs. generalize (take k order) (drop k order). intros a b Hs.
    induction a as [|x a IH]; cbn in Hs; [constructor|]. inversion_clear Hs as [|?? Hs' Hx]. constructor; [by apply IH|].
    by apply Forall_app in Hx as [? _].
  - rewrite <- Etd in Hs. revert Hs. generalize (take k order) (drop k order). intros a b Hs c r Hc Hr.
    induction a as [|x a IH]; cbn in Hs; [by apply elem_of_nil in Hc|]. inversion_clear Hs as [|?? Hs' Hx].
    apply elem_of_cons in Hc as [->|Hc]; [|by apply IH]. apply Forall_app in Hx as [_ Hx]. rewrite Forall_forall in Hx. by apply Hx.
Qed.
Print Assumptions C25_simple_selection.

(** [r] is strictly nearer to [e] than the base vertex is. *)
Definition shadows (P : hparams) (s : st) (r : N) (e : elem) : Prop :=
  exists a b d, nodes s !! e_id e = Some a /\ nodes s !! r = Some b /\
    dist_func (hp_dist P) (v_vec a) (v_vec b) = Val d /\ SFltb d (e_dist e) = true.

Lemma filter_ext_in {A} (Q1 Q2 : A -> Prop) `{HQ1 : !forall x, Decision (Q1 x), HQ2 : !forall x, Decision (Q2 x)} (l : list A) :
  (forall x, x ∈ l -> Q1 x <-> Q2 x) -> filter Q1 l = filter Q2 l.
Proof.
  induction l as [|x l IH]; intros Hiff; [done|]. rewrite !filter_cons. rewrite IH by (intros y Hy; apply Hiff; by right).
  assert (Q1 x <-> Q2 x) as Hx by (apply Hiff; left). destruct (decide (Q1 x)), (decide (Q2 x)); tauto.
Qed.

Section heur.
  Context (P : hparams) (s : st).
  Definition shadowsb (r : N) (e : elem) : bool :=
    match nodes s !! e_id e, nodes s !! r with
    | Some a, Some b => match dist P (v_vec a) (v_vec b) with Val d => fltb d (e_dist e) | _ => false end
    | _, _ => false
    end.
  Lemma shadowsb_spec r e : shadowsb r e = true <-> shadows P s r e.
  Proof.
    unfold shadowsb, shadows. split.
    - destruct (nodes s !! e_id e) as [a|]; [|done]. destruct (nodes s !! r) as [b|]; [|done].
      destruct (dist P (v_vec a) (v_vec b)) as [d| |] eqn:E; [|done..]. intros H. by exists a, b, d.
    - intros (a & b & d & -> & -> & E & H). unfold dist. by rewrite E.
  Qed.
  (** The candidates in order, each taken unless a taken one shadows it. *)
  Fixpoint greedy (m : nat) (order : list elem) (chosen : list N) : list N :=
    match order with
    | [] => chosen
    | e :: order' =>
        if length chosen <? m then
          greedy m order' (if existsb (fun r => shadowsb r e) chosen then chosen else chosen ++ [e_id e])
        else chosen
    end.

  Context (Hd : forall a b va vb, nodes s !! a = Some va -> nodes s !! b = Some vb -> exists d, dist P (v_vec va) (v_vec vb) = Val d).

  Lemma exec_heur_check e res :
    is_Some (nodes s !! e_id e) -> Forall (fun r => is_Some (nodes s !! r)) res ->
    exec (heur_check P e res) s = Some (s, Val (negb (existsb (fun r => shadowsb r e) res))).
  Proof using Hd.
    intros [a Ha] Hr. induction res as [|r res IH]; cbn [heur_check]; [done|].
    apply Forall_cons in Hr as [[b Hb] Hr]. rewrite exec_bind, exec_act, Ha, Hb. cbn [or_pan mbind out_bind].
    destruct (Hd _ _ _ _ Ha Hb) as [d Ed]. rewrite exec_bind, exec_lift, Ed. cbn [existsb].
    assert (shadowsb r e = fltb d (e_dist e)) as Es. { unfold shadowsb. by rewrite Ha, Hb, Ed. }
    rewrite Es. destruct (fltb d (e_dist e)); [done|]. cbn [orb]. by apply IH.
  Qed.

  Lemma exec_heur_loop n q m res :
    length q <= n -> Forall (fun e => is_Some (nodes s !! e_id e)) q -> Forall (fun r => is_Some (nodes s !! r)) res ->
    exec (heur_loop P n q m res) s = Some (s, Val (greedy m (drain n q) res)).
  Proof using Hd.
    revert q res. induction n as [|n IH]; intros q res Hn Hq Hr; (destruct q as [|e0 q0] eqn:Eq; [done|]); [cbn in Hn; lia|].
    rewrite <- Eq in *. destruct (heap_pop_some min_less q) as (e & q' & Hp); [by rewrite Eq|].
    pose proof (heap_pop_perm _ _ _ _ Hp) as Pp. pose proof (heap_pop_length _ _ _ _ Hp) as Lp.
    rewrite Pp in Hq. apply Forall_cons in Hq as [He Hq'].
    cbn [heur_loop drain]. rewrite Hp. cbn [greedy]. rewrite Eq at 1.
    destruct (length res <? m); [|done].
    rewrite exec_bind, exec_lift. rewrite exec_bind, exec_heur_check by done.
    rewrite IH; [|lia|done|].
    - by destruct (existsb _ _).
    - destruct (existsb _ _); cbn [negb]; [done|]. apply Forall_app. split; [done|by constructor].
  Qed.

  (** What the greedy choice is, without mentioning its computation. *)
  Lemma greedy_spec m order chosen :
    length chosen <= m ->
    exists new, greedy m order chosen = chosen ++ new /\ new `sublist_of` (e_id <$> order) /\ length (chosen ++ new) <= m /\
      (NoDup (e_id <$> order) -> forall i e, order !! i = Some e ->
        let before := chosen ++ filter (fun x => x ∈ new) (e_id <$> take i order) in
        e_id e ∈ new <-> length before < m /\ forall r, r ∈ before -> ~ shadows P s r e).
  Proof using.
    clear Hd. revert chosen. induction order as [|e0 order IH]; intros chosen Hl; cbn [greedy].
    { exists []. rewrite app_nil_r. split_and!; [done|constructor|done|]. intros _ i e Hi. done. }
    destruct (length chosen <? m) eqn:Em.
    2:{ apply Nat.ltb_ge in Em. exists []. rewrite app_nil_r. split_and!; [done|apply sublist_nil_l|done|].
        intros _ i e Hi. cbn zeta. split; [by intros ?%elem_of_nil|]. rewrite app_length. lia. }
    apply Nat.ltb_lt in Em. destruct (existsb (fun r => shadowsb r e0) chosen) eqn:Ex.
    - destruct (IH chosen Hl) as (new & Eg & Hsub & Hlen & Hspec). exists new. split_and!; [done|by apply sublist_cons|done|].
      intros [Hni Hnd]%NoDup_cons i e Hi. specialize (Hspec Hnd).
      assert (e_id e0 ∉ new) as Hnot. { intros Hin. apply Hni. eapply elem_of_submseteq; [exact Hin|]. by apply sublist_submseteq. }
      destruct i as [|i]; cbn [lookup list_lookup] in Hi.
      + injection Hi as <-. cbn. rewrite app_nil_r. split; [done|]. intros [_ Hr]. apply existsb_exists in Ex as (r & Hin & Hs).
        destruct (Hr r); [by apply elem_of_list_In|]. by apply shadowsb_spec.
      + specialize (Hspec i e Hi). cbn [take fmap list_fmap]. rewrite filter_cons_False by done. exact Hspec.
    - destruct (IH (chosen ++ [e_id e0])) as (new & Eg & Hsub & Hlen & Hspec). { rewrite app_length. cbn. lia. }
      exists (e_id e0 :: new). rewrite <- app_assoc in Eg, Hlen. split_and!; [done|by apply sublist_skip|done|].
      intros [Hni Hnd]%NoDup_cons i e Hi. specialize (Hspec Hnd).
      destruct i as [|i]; cbn [lookup list_lookup] in Hi.
      + injection Hi as <-. cbn. rewrite app_nil_r. split; [|intros _; apply elem_of_list_here]. intros _. split; [done|].
        intros r Hr Hs. apply shadowsb_spec in Hs. assert (existsb (fun r => shadowsb r e0) chosen = true) as Hc; [|congruence].
        apply existsb_exists. exists r. split; [by apply elem_of_list_In|done].
      + specialize (Hspec i e Hi). cbn [take fmap list_fmap]. rewrite filter_cons_True by apply elem_of_list_here.
        assert (e_id e ∈ e_id <$> order) as Hin. { apply elem_of_list_fmap. exists e. split; [done|]. by eapply elem_of_list_lookup_2. }
        assert (e_id e <> e_id e0) as Hne by (intros E; rewrite E in Hin; done).
        rewrite (filter_ext_in (fun x => x ∈ e_id e0 :: new) (fun x => x ∈ new)).
        * rewrite elem_of_cons. rewrite <- app_assoc in Hspec. cbn [app] in Hspec. rewrite <- Hspec. split; [by intros [?|?]|by right].
        * intros x Hx. rewrite elem_of_cons. split; [|by right]. intros [->|?]; [|done]. destruct Hni.
          apply elem_of_list_fmap in Hx as (y & -> & Hy). apply elem_of_list_fmap. exists y. split; [done|].
          apply elem_of_take in Hy as (j & Hj & _). by eapply elem_of_list_lookup_2.
  Qed.
End heur.

Theorem C25_heuristic_selection :
  forall P n s q cands m,
    index_ok P n s -> dim_ok (hp_dist P) n -> NoDup (e_id <$> cands) ->
    Forall (fun e => e_dist e <> S754_nan) cands -> Forall (is_vertex P s q 0) cands ->
    exists order chosen, order ≡ₚ cands /\ StronglySorted not_further order /\
      exec (select_heuristic P cands m) s = Some (s, Val chosen) /\
      chosen `sublist_of` (e_id <$> order) /\ length chosen <= m /\
      forall i e, order !! i = Some e ->
        let before := filter (fun x => x ∈ chosen) (e_id <$> take i order) in
        e_id e ∈ chosen <-> length before < m /\ forall r, r ∈ before -> ~ shadows P s r e.
Proof.
  intros P n s q cands m Hok Hk Hnd Hnan Hev.
  assert (Forall enum cands) as Hnum. { eapply Forall_impl; [exact Hnan|]. intros e. apply num_nan. }
  set (h := heap_init min_less cands). pose proof (heap_init_perm min_less cands) as Hp.
  assert (drain (length h) h ≡ₚ cands) as Ho by (by rewrite drain_perm).
  destruct (greedy_spec P s m (drain (length h) h) []) as (chosen & Eg & Hsub & Hlen & Hspec); [cbn; lia|].
  exists (drain (length h) h), chosen. cbn [app] in *. split_and!; try done.
  - apply drain_sorted; [unfold h; by rewrite Hp|].
    by apply (heap_init_ok min_less enum min_less_irr min_less_asym min_less_ntrans).
  - unfold select_heuristic. assert (length cands = length h) as -> by (by apply Permutation_length). fold h. rewrite exec_heur_loop.
    + by rewrite Eg.
    + intros a b va vb Ha Hb. apply (dist_total P n); [done|by eapply iok_dim|by eapply iok_dim].
    + done.
    + unfold h. rewrite Hp. eapply Forall_impl; [exact Hev|]. intros e (v & Hv & _). by exists v.
    + constructor.
  - apply Hspec. by rewrite Ho.
Qed.
Print Assumptions C25_heuristic_selection.

(** ** Concrete cases *)
(** Every state a well-formed history leads to meets the hypotheses of C17 and
    C25. *)
Lemma reachable_index_ok P n fuel ops s rs :
  params_ok P -> hist_ok P n ops -> length (hist_ins ops) <= fuel ->
  irun P fuel ops empty_st = Some (s, rs) -> index_ok P n s.
Proof.
  intros HP Hok Hf Hr.
  destruct (irun_new P n (fun v : fvec => length v = n) fuel ops) as (s' & rs' & Hr' & _ & _ & HI & _); try done.
  { intros v1 v2. apply dist_total. apply Hok. }
  { apply Hok. }
  rewrite Hr in Hr'. injection Hr' as <- <-. pose proof (hi_inv _ _ _ _ _ HI) as HI'. split.
  - split; [|apply (inv_ep _ _ _ _ _ HI')]. intros id v l cs c Hn Hl Hc. by eapply inv_conn.
  - by eapply C24_neighbour_bounds.
  - apply (inv_vec _ _ _ _ _ HI').
  - intros id v Hn E. pose proof (inv_lev _ _ _ _ _ HI' id v Hn) as Hl. rewrite E in Hl. cbn in Hl. lia.
  - apply (inv_once _ _ _ _ _ HI').
  - apply (hi_un _ _ _ _ _ HI).
Qed.

(** Checks of the hypotheses by computation. *)
Fixpoint searches_ok (seen : bool) (ops : list iop) : bool :=
  match ops with
  | [] => true
  | IInsert _ _ _ :: ops' => searches_ok true ops'
  | IDelete _ :: ops' => searches_ok seen ops'
  | ISearch _ k :: ops' => seen && (0 <=? k)%Z && searches_ok seen ops'
  end.
Lemma searches_ok_spec pre0 ops :
  searches_ok (bool_decide (hist_ins pre0 <> [])) ops = true ->
  forall pre q k post, ops = pre ++ ISearch q k :: post -> hist_ins (pre0 ++ pre) <> [] /\ (0 <= k)%Z.
Proof.
  revert pre0. induction ops as [|o ops IH]; intros pre0 H pre q k post E; [by destruct pre|].
  destruct pre as [|o' pre]; cbn [app] in E; injection E as -> E.
  - subst ops. cbn [searches_ok] in H. apply andb_prop in H as [[H1%bool_decide_eq_true H2%Z.leb_le]%andb_prop _].
    by rewrite app_nil_r.
  - change (o' :: pre) with ([o'] ++ pre). rewrite app_assoc. apply (IH (pre0 ++ [o']) ) with (q := q) (post := post); [|done].
    rewrite hist_ins_app. destruct o'; cbn [searches_ok] in H; cbn; rewrite ?app_nil_r; [|done|].
    + rewrite bool_decide_true; [done|]. by destruct (hist_ins pre0).
    + by apply andb_prop in H as [_ H].
Qed.
Lemma hist_ok_check P n ops :
  dim_ok (hp_dist P) n ->
  forallb (fun v : fvec => length v =? n) (hist_vecs ops) && bool_decide (NoDup (hist_ins ops)) && searches_ok false ops = true ->
  hist_ok P n ops.
Proof.
  intros Hk [[H1 H2%bool_decide_eq_true]%andb_prop H3]%andb_prop. split; try done.
  - intros v Hv. rewrite forallb_forall in H1. apply elem_of_list_In in Hv. specialize (H1 _ Hv). by apply Nat.eqb_eq.
  - by apply (searches_ok_spec []).
Qed.
Definition nan_free (P : hparams) (vs : list fvec) : bool :=
  forallb (fun v => forallb (fun w => match dist_func (hp_dist P) v w with Val S754_nan => false | _ => true end) vs) vs.
Lemma no_nan_check P vs : nan_free P vs = true -> no_nan P vs.
Proof.
  intros H v w d Hv Hw Hd ->. unfold nan_free in H. rewrite forallb_forall in H. apply elem_of_list_In in Hv, Hw.
  specialize (H _ Hv). rewrite forallb_forall in H. specialize (H _ Hw). by rewrite Hd in H.
Qed.

(** Six points on three layers, two of them deleted. *)
Definition ex_params : hparams := HParams 2 2 4 4 true Euclidean.
Definition ex_hist : list iop :=
  [IInsert 0 [0]%N 10; IInsert 1 [1065353216]%N 11; IInsert 0 [1073741824]%N 12; IInsert 2 [1077936128]%N 13; IDelete 12;
   IInsert 0 [1084227584]%N 14; ISearch [1077936128]%N 2; IInsert 1 [1092616192]%N 15; IDelete 10]%N.
Definition ex_query : fvec := [1073741824]%N.
Lemma ex_params_ok : params_ok ex_params.
Proof. split; cbn; lia. Qed.
Lemma ex_hist_ok : hist_ok ex_params 1 (ex_hist ++ [ISearch ex_query 3]).
Proof. apply hist_ok_check; [done|]. by vm_compute. Qed.

Example C22_case : params_ok ex_params /\ hist_ok ex_params 1 ex_hist /\ length (hist_ins ex_hist) <= 6.
Proof. split_and!; [apply ex_params_ok|eapply hist_ok_prefix, ex_hist_ok|vm_compute; lia]. Qed.
Example C16_case : params_ok ex_params /\ hist_ok ex_params 1 (ex_hist ++ [ISearch ex_query 3]) /\ length (hist_ins ex_hist) <= 6 /\
  no_nan ex_params (ex_query :: hist_vecs ex_hist) /\
  (irun ex_params 6 (ex_hist ++ [ISearch ex_query 3]) empty_st ≫= fun '(_, rs) => last rs) =
    Some (Val [Elem 11 (f32_val 1065353216); Elem 13 (f32_val 1065353216); Elem 14 (f32_val 1077936128)]%N).
Proof.
  split_and!; [apply ex_params_ok|apply ex_hist_ok|vm_compute; lia|apply no_nan_check; by vm_compute|by vm_compute].
Qed.
Example C34_case : (fun '(s, _) => (ep s, maxl s)) <$> irun ex_params 6 ex_hist empty_st = Some (13%N, 2).
Proof. by vm_compute. Qed.
(** With the simple strategy the bound of the layer-0 lists is reached: *)
Definition ex_params4 : hparams := HParams 2 1 4 4 false Euclidean.
Example C24_case : (irun ex_params4 6 ex_hist empty_st ≫= fun '(s, _) => nodes s !! 13%N ≫= fun v => v_conns v !! 0) = Some [12; 11]%N.
Proof. by vm_compute. Qed.
(** Validated parameters do not guarantee that neighbour lists fit the search
    buffer: M = 3, MMax = 1 is accepted, the fourth vertex has three
    neighbours and the fifth insert panics. *)
Definition bad_raw : raw := Raw 3 1 8 8 false "euclidean_distance".
Definition bad_hist : list iop :=
  [IInsert 0 [0]%N 0; IInsert 0 [1065353216]%N 1; IInsert 0 [1073741824]%N 2; IInsert 0 [1077936128]%N 3;
   IInsert 0 [1082130432]%N 4]%N.
Theorem C24_fits_search_buffer_refuted :
  exists r ops s rs v cs, validate_hnsw (IPOk r) = Val tt /\ hist_ok (hparams_of r) 1 ops /\
    irun (hparams_of r) (length ops) ops empty_st = Some (s, rs) /\
    nodes s !! 3%N = Some v /\ v_conns v !! 0 = Some cs /\ 2 * hp_mMax (hparams_of r) < length cs /\
    last rs = Some (Pan PIndex).
Proof.
  exists bad_raw, bad_hist.
  assert ((irun (hparams_of bad_raw) (length bad_hist) bad_hist empty_st ≫= fun '(s, rs) =>
    nodes s !! 3%N ≫= fun v => v_conns v !! 0 ≫= fun cs => Some (cs, last rs)) = Some ([2; 1; 0]%N, Some (Pan PIndex))) as H by by vm_compute.
  destruct (irun _ _ _ _) as [[s rs]|]; [|done]. exists s, rs. cbn [mbind option_bind] in H.
  destruct (nodes s !! 3%N) as [v|]; [|done]. exists v. cbn [mbind option_bind] in H.
  destruct (v_conns v !! 0) as [cs|]; [|done]. exists cs. cbn [mbind option_bind] in H. injection H as -> Hl.
  split_and!; try done; [|cbn; lia]. apply hist_ok_check; [done|]. by vm_compute.
Qed.
Print Assumptions C24_fits_search_buffer_refuted.

(** The state after [ex_hist]; a layer search started from two vertices. *)
Definition ex_st : st := match irun ex_params 6 ex_hist empty_st with Some (s, _) => s | None => empty_st end.
Lemma ex_st_ok : index_ok ex_params 1 ex_st.
Proof.
  destruct (C22_index_never_panics ex_params 1 6 ex_hist) as (s & rs & Hr & _); [apply C22_case..|].
  unfold ex_st. rewrite Hr. eapply (reachable_index_ok _ _ 6 ex_hist); [apply C22_case..|exact Hr].
Qed.
#[local] Instance sf_eq_dec : EqDecision spec_float.
Proof. solve_decision. Defined.
Definition is_vertexb (P : hparams) (s : st) (q : fvec) (l : nat) (e : elem) : bool :=
  match nodes s !! e_id e with
  | Some v => (l <? length (v_conns v)) &&
      match dist_func (hp_dist P) (v_vec v) q with Val d => bool_decide (d = e_dist e) | _ => false end
  | None => false
  end.
Lemma is_vertex_check P s q l es : forallb (is_vertexb P s q l) es = true -> Forall (is_vertex P s q l) es.
Proof.
  intros H. apply Forall_forall. intros e He. rewrite forallb_forall in H. apply elem_of_list_In in He. specialize (H _ He).
  unfold is_vertexb in H. unfold is_vertex. destruct (nodes s !! e_id e) as [v|]; [|done]. exists v. split; [done|].
  apply andb_prop in H as [H1%Nat.ltb_lt H2]. split; [done|]. destruct (dist_func _ _ _); [|done..].
  apply bool_decide_eq_true in H2. by rewrite H2.
Qed.
Definition ex_eps : list elem := [Elem 15 (f32_val 1090519040); Elem 10 (f32_val 1073741824)]%N.
Example C17_case : index_ok ex_params 1 ex_st /\ length ex_eps <= 3 /\ NoDup (e_id <$> ex_eps) /\
  Forall (is_vertex ex_params ex_st ex_query 0) ex_eps /\ size (nodes ex_st) <= 6 /\
  snd <$> exec (search_layer ex_params 0 6 ex_query ex_eps 3 0) ex_st =
    Some (Val [Elem 10 (f32_val 1073741824); Elem 12 (f32_val 0); Elem 11 (f32_val 1065353216)]%N).
Proof.
  split_and!; [apply ex_st_ok|cbn; lia|apply (bool_decide_eq_true _); by vm_compute|apply is_vertex_check; by vm_compute| |by vm_compute].
  apply Nat.leb_le. by vm_compute.
Qed.
(** Of 11, 13, 12 as seen from 2.5, the heuristic keeps the nearest one of
    each direction and drops 11, which is nearer to 12. *)
Definition ex_cands : list elem := [Elem 11 (f32_val 1069547520); Elem 13 (f32_val 1056964608); Elem 12 (f32_val 1056964608)]%N.
Example C25_case : Forall (is_vertex ex_params ex_st [1075838976]%N 0) ex_cands /\ NoDup (e_id <$> ex_cands) /\
  Forall (fun e => e_dist e <> S754_nan) ex_cands /\
  select_simple ex_cands 2 = Val [13; 12]%N /\
  snd <$> exec (select_heuristic ex_params ex_cands 3) ex_st = Some (Val [13; 12]%N).
Proof.
  split_and!; [apply is_vertex_check; by vm_compute|apply (bool_decide_eq_true _); by vm_compute|by repeat constructor|by vm_compute|by vm_compute].
Qed.
