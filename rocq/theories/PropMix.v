(** Inserts, deletes and searches of the index made at the same time by any
    number of goroutines: C60. *)
From stdpp Require Import sorting relations.
From Verif Require Import GoBase FloatModel HeapModel ProgModel StateModel WalModel HnswModel CollModel DBModel
  ProofBase CodecProofs FloatProofs HeapProofs WpProofs HnswProofs IndexProofs StepProofs SeqLog IndexHist PropIndex PropPar.
From Coq Require Import SpecFloat.
Open Scope nat_scope.

(** ** Small specifications *)
(** One call made by goroutine [t]. *)
Definition mcall (P : hparams) (t fuel : nat) (o : iop) : prog st (list elem) :=
  match o with
  | IInsert level vec id => hnsw_insert P t fuel level vec id;; mret []
  | IDelete id => hnsw_delete id;; mret []
  | ISearch q k => hnsw_search P t fuel q k
  end.
(** A goroutine that makes calls one after the other; the answers of all. *)
Fixpoint caller (P : hparams) (t fuel : nat) (ops : list iop) : prog st (list (list elem)) :=
  match ops with
  | [] => mret []
  | o :: ops' => r ← mcall P t fuel o; rs ← caller P t fuel ops'; mret (r :: rs)
  end.
Definition callers (P : hparams) (fuel : nat) (work : list (list iop)) : list (prog st (list (list elem))) :=
  imap (fun t ops => caller P t fuel ops) work.

(** Well-formed work for a state: one dimension, fresh distinct ids, and no
    goroutine searches before it knows the index is not empty. *)
Record mix_ok (P : hparams) (n : nat) (work : list (list iop)) (s : st) : Prop := MkMixOk {
  mok_kind : dim_ok (hp_dist P) n;
  mok_dim : forall v, v ∈ hist_vecs (mjoin work) -> length v = n;
  mok_ids : NoDup (hist_ins (mjoin work));
  mok_new : forall id, id ∈ hist_ins (mjoin work) -> nodes s !! id = None;
  mok_search : forall pre q k post, (pre ++ ISearch q k :: post) ∈ work ->
    (nodes s <> ∅ \/ hist_ins pre <> []) /\ (0 <= k)%Z
}.

(** [vec] is the vector of [id]: in the index at the start, or inserted. *)
Definition vector_of (s : st) (work : list (list iop)) (id : N) (vec : fvec) : Prop :=
  (exists v, nodes s !! id = Some v /\ v_vec v = vec) \/ exists level, IInsert level vec id ∈ mjoin work.
(** No distance that can be computed is NaN. *)
Definition mix_no_nan (P : hparams) (s : st) (work : list (list iop)) : Prop :=
  forall v w d,
    (v ∈ hist_vecs (mjoin work) \/ exists id x, nodes s !! id = Some x /\ v_vec x = v) ->
    (w ∈ hist_vecs (mjoin work) \/ exists id x, nodes s !! id = Some x /\ v_vec x = w) ->
    dist_func (hp_dist P) v w = Val d -> d <> S754_nan.

(** What a goroutine that has made the calls [pre] may be answered, when the
    calls [work] are made from the state [s]. *)
Record mix_answer_ok (P : hparams) (s : st) (work : list (list iop)) (pre : list iop) (q : fvec) (k : Z)
    (res : list elem) : Prop := MkMixAns {
  mans_k : (Z.of_nat (length res) <= k)%Z;
  mans_ef : length res <= hp_ef P;
  mans_sorted : mix_no_nan P s work -> StronglySorted not_further res;
  mans_distinct : NoDup (e_id <$> res);
  mans_stored : forall e, e ∈ res ->
    e_id e ∉ deleted s /\ IDelete (e_id e) ∉ pre /\
    exists vec, vector_of s work (e_id e) vec /\ dist_func (hp_dist P) vec q = Val (e_dist e);
  mans_some : (0 < k)%Z -> deleted s = ∅ -> hist_del (mjoin work) = [] -> res <> []
}.

(** ** Answers *)
Lemma StronglySorted_filter {A} (R : A -> A -> Prop) (Q : A -> Prop) `{forall x, Decision (Q x)} (l : list A) :
  StronglySorted R l -> StronglySorted R (filter Q l).
Proof.
  induction 1 as [|a l Hl IH Ha]; [constructor|]. rewrite filter_cons. case_decide; [|done]. constructor; [done|].
  apply Forall_forall. intros x [_ Hx']%elem_of_list_filter. rewrite Forall_forall in Ha. by apply Ha.
Qed.
Lemma StronglySorted_take {A} (R : A -> A -> Prop) m (l : list A) : StronglySorted R l -> StronglySorted R (take m l).
Proof.
  intros Hl. revert m. induction Hl as [|a l Hl IH Ha]; intros [|m]; cbn; try constructor; [apply IH|]. by apply Forall_take.
Qed.

(** What [hnsw_search] answers, as a function of what the last layer search found. *)
Lemma answer_of_near P (near : list elem) (dels : gset N) (k : Z) :
  (0 <= k)%Z -> NoDup (e_id <$> near) -> length near <= hp_ef P ->
  let res := take (Z.to_nat k) (filter (live dels) (drain (length near) (new_min_heap near))) in
  (Z.of_nat (length res) <= k)%Z /\ length res <= hp_ef P /\
  (Forall enum near -> StronglySorted not_further res) /\ NoDup (e_id <$> res) /\
  (forall e, e ∈ res -> e ∈ near /\ e_id e ∉ dels) /\
  ((0 < k)%Z -> near <> [] -> dels = ∅ -> res <> []).
Proof.
  intros Hk Hnd Hlen res.
  pose proof (heap_init_perm min_less near) as Hperm.
  assert (drain (length near) (new_min_heap near) ≡ₚ near) as Hdr.
  { rewrite drain_perm; [done|]. unfold new_min_heap. by rewrite (Permutation_length Hperm). }
  unfold res. split_and!.
  - rewrite take_length. lia.
  - rewrite take_length. etrans; [apply Nat.le_min_r|]. etrans; [apply filter_length|].
    by rewrite (Permutation_length Hdr).
  - intros Hnum. apply StronglySorted_take, StronglySorted_filter.
    apply drain_sorted; [unfold new_min_heap; by rewrite Hperm|].
    apply (heap_init_ok min_less enum min_less_irr min_less_asym min_less_ntrans). done.
  - rewrite fmap_take. eapply sublist_NoDup; [apply sublist_take|].
    eapply sublist_NoDup; [apply fmap_sublist, (sublist_filter (live dels))|]. rewrite Hdr. exact Hnd.
  - intros e He. apply elem_of_take in He as (i & He & _).
    apply elem_of_list_lookup_2, elem_of_list_filter in He as [Hlv He]. by rewrite Hdr in He.
  - intros Hk0 Hne ->. assert (filter (live ∅) (drain (length near) (new_min_heap near)) <> []) as Hf.
    { destruct near as [|e near]; [done|]. intros Hf.
      assert (e ∈ filter (live ∅) (drain (length (e :: near)) (new_min_heap (e :: near)))) as He.
      { apply elem_of_list_filter. split; [unfold live; set_solver|]. rewrite Hdr. set_solver. }
      rewrite Hf in He. set_solver. }
    destruct (filter _ _); [done|]. destruct (Z.to_nat k) eqn:E; [lia|]. done.
Qed.

(** ** The logic *)
Section mix.
  Context (P : hparams) (okv : fvec -> Prop) (U D : gset N).
  Notation Inv := (Inv P true okv U).
  Notation parE := (parE P okv U D).
  Notation parGU := (parGU P okv U D).
  Context (Hdist : forall v1 v2, okv v1 -> okv v2 -> exists d, dist P v1 v2 = Val d).
  Context (Hdeg : hp_m P < mMax0 P).

  (** The answer of one call, in a state where the goroutine has finished it;
      [lo]: tombstones there were when the call began. *)
  Definition mres (lo hi : gset N) (o : iop) (r : list elem) (s : st) : Prop :=
    match o with
    | IInsert level vec id => r = [] /\ inserted id vec level s
    | IDelete id => r = [] /\ id ∈ deleted s
    | ISearch q k => exists near dels, lo ⊆ dels /\ dels ⊆ hi /\ near <> [] /\ length near <= hp_ef P /\
        NoDup (e_id <$> near) /\ Forall (evalid P q s 0) near /\
        r = take (Z.to_nat k) (filter (live dels) (drain (length near) (new_min_heap near)))
    end.
  Lemma mres_stable lo hi o r s s1 : ext s s1 -> deleted s ⊆ deleted s1 -> mres lo hi o r s -> mres lo hi o r s1.
  Proof using.
    clear Hdist Hdeg. intros Hx Hd. destruct o as [level vec id|id|q k]; cbn.
    - intros [-> Hi]. split; [done|]. by eapply inserted_ext.
    - set_solver.
    - intros (near & dels & H1 & H2 & H3 & H4 & H5 & H6 & H7). exists near, dels. split_and!; try done.
      eapply Forall_impl; [exact H6|]. intros e. by apply evalid_ext.
  Qed.

  Definition op_ok (own : gset N) (s : st) (o : iop) : Prop :=
    match o with
    | IInsert level vec id => okv vec /\ id ∈ own /\ id ∈ U /\ nodes s !! id = None
    | IDelete id => id ∈ D
    | ISearch q k => okv q /\ (0 <= k)%Z
    end.

  Lemma wp_mcall fuel o i own s :
    params_ok P -> Inv s -> free i s -> size U <= fuel ->
    op_ok own s o -> match o with ISearch _ _ => nodes s <> ∅ | _ => True end ->
    wp parE parGU parB (mcall P i fuel o)
      (fun x r s' => x = (i, own) /\ Inv s' /\ ext s s' /\ free i s' /\ delrel D s s' /\
        (forall id, id ∈ own -> id ∉ list_to_set (C := gset N) (iop_ins o) -> nodes s !! id = None -> nodes s' !! id = None) /\
        exists res, r = Val res /\ mres (deleted s) (deleted s ∪ D) o res s') (i, own) s.
  Proof using Hdist Hdeg.
    intros HP HI Hf Hfuel Ho Hne. destruct o as [level vec id|id|q k]; cbn [mcall op_ok mres iop_ins] in *.
    - destruct Ho as (Hv & Hown & HU & Hn).
      pose proof (par_insert P okv U Hdist Hdeg D fuel level vec id i {[id]} s (pok_efc P HP) HI Hf Hv ltac:(set_solver) HU Hn Hfuel) as Hw.
      apply (wp_own _ _ _ _ _ _ _ _ own) in Hw; [|set_solver].
      apply wp_bind; [apply par_refl|]. eapply wp_mono; [|exact Hw].
      intros x r s1 (-> & (_ & HI1 & Hx & [] & -> & Hf1 & Hins) & Hdr & Hnone).
      apply wp_ret. intros s2 [He Hd2]. split_and!; try done.
      + by apply (rely_inv _ _ _ _ _ _ _ _ He).
      + eapply ext_trans; [exact Hx|]. apply (rely_ext _ _ _ _ _ _ _ _ He).
      + eapply lockrel_free; [|exact Hf1]. apply (rely_lock _ _ _ _ _ _ _ _ He).
      + by eapply delrel_trans.
      + intros k Hk Hki Hs. apply (rely_own _ _ _ _ _ _ _ _ He); [done|]. apply Hnone; [done| |done]. set_solver.
      + exists []. split; [done|]. split; [done|]. eapply inserted_ext; [|exact Hins]. apply (rely_ext _ _ _ _ _ _ _ _ He).
    - unfold hnsw_delete. rewrite enc_delete_eq. apply wp_bind; [apply par_refl|]. apply wp_act. intros s1 [He Hd1]. cbn [fst snd].
      set (s1' := set_deleted _ _). exists (i, own).
      assert (Inv s1) as HI1 by (by apply (rely_inv _ _ _ _ _ _ _ _ He)).
      assert (Inv s1') as HI1' by (eapply Inv_same; [..|exact HI1]; done).
      assert (delrel D s1 s1') as Hd1' by (unfold delrel; cbn; clear -Ho; set_solver).
      split.
      + split; [done|]. split; [done|]. split; try done.
        * by apply ext_same.
        * intros k E0 [v Hv]. cbn in Hv. congruence.
        * intros t' _. by apply lockrel_same.
      + intros s2 [He2 Hd2]. apply wp_ret. intros s3 [He3 Hd3]. split_and!; try done.
        * by apply (rely_inv _ _ _ _ _ _ _ _ He3), (rely_inv _ _ _ _ _ _ _ _ He2).
        * eapply ext_trans; [apply (rely_ext _ _ _ _ _ _ _ _ He)|].
          eapply (ext_trans _ s1'); [by apply ext_same|].
          eapply ext_trans; [apply (rely_ext _ _ _ _ _ _ _ _ He2)|apply (rely_ext _ _ _ _ _ _ _ _ He3)].
        * eapply lockrel_free; [apply (rely_lock _ _ _ _ _ _ _ _ He3)|].
          eapply lockrel_free; [apply (rely_lock _ _ _ _ _ _ _ _ He2)|].
          assert (free i s1) as Hf1 by (eapply lockrel_free; [apply (rely_lock _ _ _ _ _ _ _ _ He)|done]). exact Hf1.
        * eapply delrel_trans; [exact Hd1|]. eapply delrel_trans; [exact Hd1'|]. by eapply delrel_trans.
        * intros k Hk _ Hs. apply (rely_own _ _ _ _ _ _ _ _ He3); [done|]. apply (rely_own _ _ _ _ _ _ _ _ He2); [done|].
          apply (rely_own _ _ _ _ _ _ _ _ He); done.
        * exists []. split; [done|]. split; [done|]. destruct Hd2 as [Hd2 _]. destruct Hd3 as [Hd3 _]. apply Hd3, Hd2.
          cbn. clear. set_solver.
    - destruct Ho as [Hq Hk].
      eapply wp_mono; [|exact (wp_hnsw_search P true okv U fst snd parE parGU parB (par_refl P okv U D) (par_trans P okv U D)
        (par_E P okv U D) (par_GU P okv U D) (par_B P okv U) Hdist (par_deg P Hdeg) fuel q k (i, own) s s (pok_ef P HP)
        HI (par_refl P okv U D _ s) Hf Hq Hne Hfuel Hk)].
      intros x r s1 (-> & [He Hd] & res & -> & near & dels & H1 & H2 & H3 & H4 & (s4 & [He4 Hd4] & _ & ->) & ->).
      split_and!; try done.
      + by apply (rely_inv _ _ _ _ _ _ _ _ He).
      + apply (rely_ext _ _ _ _ _ _ _ _ He).
      + eapply lockrel_free; [apply (rely_lock _ _ _ _ _ _ _ _ He)|done].
      + intros id Hid _ Hn. by apply (rely_own _ _ _ _ _ _ _ _ He).
      + eexists. split; [done|]. exists near, (deleted s4). split_and!; try done; apply Hd4.
  Qed.

  (** The answers of a list of calls; [lo]: tombstones when they began. *)
  Fixpoint mress (lo hi : gset N) (ops : list iop) (rs : list (list elem)) (s : st) : Prop :=
    match ops, rs with
    | [], [] => True
    | o :: ops', r :: rs' => mres lo hi o r s /\ mress (lo ∪ list_to_set (iop_del o)) hi ops' rs' s
    | _, _ => False
    end.

  Lemma mres_mono lo lo' hi hi' o r s : lo' ⊆ lo -> hi ⊆ hi' -> mres lo hi o r s -> mres lo' hi' o r s.
  Proof using.
    clear Hdist Hdeg. intros Hl Hh. destruct o; cbn; try done.
    intros (near & dels & H1 & H2 & H). exists near, dels. split; [by etrans|]. split; [by etrans|exact H].
  Qed.

  Lemma mress_stable lo hi ops rs s s1 : ext s s1 -> deleted s ⊆ deleted s1 -> mress lo hi ops rs s -> mress lo hi ops rs s1.
  Proof using.
    clear Hdist Hdeg. intros Hx Hd. revert lo rs. induction ops as [|o ops IH]; intros lo [|r rs]; cbn [mress]; try done.
    intros [H1 H2]. split; [by eapply mres_stable|by apply IH].
  Qed.

  Lemma wp_caller fuel hi ops i own lo s s0 :
    params_ok P -> Inv s -> ext s0 s -> free i s -> size U <= fuel -> NoDup (hist_ins ops) ->
    Forall (op_ok own s) ops ->
    (forall pre q k post, ops = pre ++ ISearch q k :: post -> nodes s <> ∅ \/ hist_ins pre <> []) ->
    lo ⊆ deleted s -> deleted s ∪ D ⊆ hi ->
    wp parE parGU parB (caller P i fuel ops)
      (fun x r s' => x = (i, own) /\ Inv s' /\ ext s0 s' /\ free i s' /\ delrel D s s' /\
        exists rs, r = Val rs /\ mress lo hi ops rs s') (i, own) s.
  Proof using Hdist Hdeg.
    intros HP. revert lo s s0. induction ops as [|o ops IH]; intros lo s s0 HI H0 Hf Hfuel Hnd Hops Hse Hlo Hhi; cbn [caller].
    - apply wp_ret. intros s1 [He Hd]. split_and!; try done.
      + by apply (rely_inv _ _ _ _ _ _ _ _ He).
      + eapply ext_trans; [exact H0|]. apply (rely_ext _ _ _ _ _ _ _ _ He).
      + eapply lockrel_free; [|exact Hf]. apply (rely_lock _ _ _ _ _ _ _ _ He).
      + by exists [].
    - apply Forall_cons in Hops as [Ho Hops].
      assert (hist_ins (o :: ops) = iop_ins o ++ hist_ins ops) as Hio by done.
      rewrite Hio in Hnd. apply NoDup_app in Hnd as (_ & Hdis & Hnd).
      apply wp_bind; [apply par_refl|]. eapply wp_mono; [|apply (wp_mcall fuel o i own s HP HI Hf Hfuel Ho)].
      2:{ destruct o as [| |q k]; try done. destruct (Hse [] q k ops eq_refl) as [?|Hx]; [done|]. by destruct Hx. }
      intros x r s1 (-> & HI1 & Hx1 & Hf1 & Hd1 & Hnone & res & -> & Hres).
      apply wp_bind; [apply par_refl|].
      eapply wp_mono; [|apply (IH (lo ∪ list_to_set (iop_del o)) s1 s1 HI1 (ext_refl s1) Hf1 Hfuel Hnd)].
      + intros x r s2 (-> & HI2 & Hx2 & Hf2 & Hd2 & rs & -> & Hrs).
        apply wp_ret. intros s3 [He3 Hd3].
        pose proof (rely_ext _ _ _ _ _ _ _ _ He3) as Hx3.
        split_and!; try done.
        * by apply (rely_inv _ _ _ _ _ _ _ _ He3).
        * eapply ext_trans; [exact H0|]. eapply ext_trans; [exact Hx1|]. by eapply ext_trans.
        * eapply lockrel_free; [|exact Hf2]. apply (rely_lock _ _ _ _ _ _ _ _ He3).
        * eapply delrel_trans; [exact Hd1|]. by eapply delrel_trans.
        * exists (res :: rs). split; [done|]. cbn [mress]. split.
          -- eapply mres_mono; [exact Hlo|exact Hhi|]. eapply mres_stable; [| |exact Hres]; [by eapply ext_trans|].
             etrans; [apply Hd2|apply Hd3].
          -- eapply mress_stable; [exact Hx3|apply Hd3|done].
      + apply Forall_forall. intros o' Ho'. rewrite Forall_forall in Hops. specialize (Hops o' Ho').
        destruct o' as [level vec id|id|q k]; [|done..]. destruct Hops as (? & ? & ? & Hn). split_and!; try done.
        apply Hnone; [done| |done]. rewrite elem_of_list_to_set. intros Hin. apply (Hdis id Hin). by eapply hist_ins_in.
      + intros pre q k post ->. destruct (Hse (o :: pre) q k post eq_refl) as [Hne|Hne].
        * left. by eapply ext_nonempty.
        * destruct o as [level vec id|id|q' k']; [|by right..]. left. destruct Hres as [_ Hins].
          destruct Hins as (v & Hv & _). intros E. rewrite E in Hv. done.
      + destruct Hd1 as [Hd1 _]. destruct o as [level vec id|id|q k]; cbn [iop_del list_to_set] in *.
        * clear -Hlo Hd1. set_solver.
        * destruct Hres as [_ Hres]. clear -Hlo Hd1 Hres. set_solver.
        * clear -Hlo Hd1. set_solver.
      + destruct Hd1 as [_ Hd1]. clear -Hd1 Hhi. set_solver.
  Qed.
End mix.

Lemma mress_length P lo hi ops rs s : mress P lo hi ops rs s -> length rs = length ops.
Proof. revert lo rs. induction ops as [|o ops IH]; intros lo [|r rs]; cbn [mress]; try done. intros [_ H]. cbn. by rewrite (IH _ _ H). Qed.
Lemma mress_lookup P lo hi ops rs s p o :
  mress P lo hi ops rs s -> ops !! p = Some o ->
  exists r, rs !! p = Some r /\ mres P (lo ∪ list_to_set (hist_del (take p ops))) hi o r s.
Proof.
  revert lo rs p. induction ops as [|o' ops IH]; intros lo [|r rs] p; cbn [mress]; try done. intros [H1 H2] Hp.
  destruct p as [|p]; cbn in Hp.
  - injection Hp as <-. exists r. split; [done|]. eapply mres_mono; [| |exact H1]; [|done]. cbn. set_solver.
  - destruct (IH _ _ _ H2 Hp) as (r' & Hr' & Hm). exists r'. split; [done|]. eapply mres_mono; [| |exact Hm]; [|done].
    assert (hist_del (take (S p) (o' :: ops)) = iop_del o' ++ hist_del (take p ops)) as -> by done. set_solver.
Qed.

Lemma Inv_okv P conc (okv okv' : fvec -> Prop) U s :
  Inv P conc okv U s -> (forall id v, nodes s !! id = Some v -> okv' (v_vec v)) -> Inv P conc okv' U s.
Proof. intros [H1 H2 H3 H4 H5 H6 H7] Hv. by split. Qed.

Lemma hist_ins_of ops id : id ∈ hist_ins ops -> exists level vec, IInsert level vec id ∈ ops.
Proof.
  unfold hist_ins. intros H. apply elem_of_list_join in H as (l & Hl & H). apply elem_of_list_fmap in H as (o & -> & Ho).
  destruct o as [level vec id1|id1|q k]; cbn in Hl; [|by apply elem_of_nil in Hl..].
  apply elem_of_list_singleton in Hl as ->. by exists level, vec.
Qed.
Lemma hist_del_in ops id : IDelete id ∈ ops <-> id ∈ hist_del ops.
Proof.
  unfold hist_del. rewrite elem_of_list_join. split.
  - intros H. exists [id]. split; [set_solver|]. apply elem_of_list_fmap. by exists (IDelete id).
  - intros (l & Hl & H). apply elem_of_list_fmap in H as (o & -> & Ho). destruct o; cbn in Hl; set_solver.
Qed.
Lemma hist_ins_mjoin (work : list (list iop)) : hist_ins (mjoin work) = mjoin (hist_ins <$> work).
Proof. induction work as [|ops work IH]; [done|]. change (mjoin (ops :: work)) with (ops ++ mjoin work). rewrite hist_ins_app, IH. done. Qed.
Lemma rtc_mstep_nil {S A} (s s' : S) (ts' : list (prog S A)) : rtc mstep (s, []) (s', ts') -> s' = s /\ ts' = [].
Proof. intros Hr. inversion Hr as [|? m ? Hst]; subst; [done|]. inversion Hst; subst. done. Qed.

(** ** C60 *)
Theorem C60_mixed_calls :
  forall P n fuel work s,
    params_ok P -> hp_m P < 2 * hp_mMax P -> par_ok P n s -> mix_ok P n work s ->
    size (nodes s) + length (hist_ins (mjoin work)) <= fuel ->
    (* no schedule runs for ever *)
    Acc (flip mstep) (s, callers P fuel work) /\
    forall s' ts', rtc mstep (s, callers P fuel work) (s', ts') ->
      (* at any moment: finished goroutines have not panicked, references are fine *)
      (forall i r, ts' !! i = Some (Done r) -> exists rs, r = Val rs) /\ refs_ok s' /\
      (* and either some goroutine can go on, or all have finished *)
      ((exists m, mstep (s', ts') m) \/
       exists rss, ts' = (fun rs => Done (Val rs)) <$> rss /\ par_ok P n s' /\
         (* then exactly the inserted vertices are there and exactly the deleted ids are marked *)
         (forall id v, nodes s' !! id = Some v -> vector_of s work id (v_vec v)) /\
         (forall id vec, vector_of s work id vec -> exists v, nodes s' !! id = Some v /\ v_vec v = vec) /\
         (forall id, id ∈ deleted s' <-> id ∈ deleted s \/ IDelete id ∈ mjoin work) /\
         (* and every search was given a sound answer *)
         forall i ops p q k, work !! i = Some ops -> ops !! p = Some (ISearch q k) ->
           exists rs res, rss !! i = Some rs /\ rs !! p = Some res /\ mix_answer_ok P s work (take p ops) q k res).
Proof.
  intros P n fuel work s HP Hm Hok [Hk Hd Hids Hnew Hse] Hfuel. split; [apply mstep_acc|]. intros s' ts' Hr.
  set (inp := fun v : fvec => v ∈ hist_vecs (mjoin work) \/ exists id x, nodes s !! id = Some x /\ v_vec x = v).
  set (okv := fun v : fvec => length v = n /\ inp v).
  set (U := dom (nodes s) ∪ list_to_set (hist_ins (mjoin work))).
  set (D := list_to_set (hist_del (mjoin work)) : gset N).
  assert (Hdist : forall v1 v2, okv v1 -> okv v2 -> exists d, dist P v1 v2 = Val d) by (intros v1 v2 [? _] [? _]; by eapply dist_total).
  assert (size U <= fuel) as HU.
  { unfold U. rewrite size_union_alt. etrans; [|exact Hfuel]. rewrite size_dom.
    assert (size (list_to_set (hist_ins (mjoin work)) ∖ dom (nodes s) : gset N) <= size (list_to_set (hist_ins (mjoin work)) : gset N)) as Hle
      by (apply subseteq_size; set_solver).
    rewrite size_list_to_set in Hle by done. lia. }
  assert (Inv P true okv U s) as HI.
  { eapply Inv_okv; [apply (par_ok_Inv P n)|]; [done|..].
    - intros id Hs. apply elem_of_dom in Hs. set_solver.
    - intros id v Hn. split; [by eapply pok_dim|]. right. by exists id, v. }
  set (own := fun ops => list_to_set (hist_ins ops) : gset N).
  set (xs := imap (fun t ops => (t, own ops)) work).
  set (Q := fun (i : nat) (x : pl) (r : out (list (list elem))) (s' : st) => exists ops, work !! i = Some ops /\ x = (i, own ops) /\
    ext s s' /\ free i s' /\ delrel D s s' /\ exists rs, r = Val rs /\ mress P (deleted s) (deleted s ∪ D) ops rs s').
  assert (forall i ops, work !! i = Some ops -> forall o, o ∈ ops -> o ∈ mjoin work) as Hin.
  { intros i ops Hi o Ho. apply elem_of_list_join. exists ops. split; [done|]. by eapply elem_of_list_lookup_2. }
  assert (all_wp (parE P okv U D) (parGU P okv U D) parB (parW P okv U (dom (nodes s))) Q xs (callers P fuel work) s) as Ha.
  { rewrite hist_ins_mjoin in Hids. split_and!.
    - unfold xs, callers. by rewrite !imap_length.
    - unfold parW. split_and!; [done|..].
      + intros i x Hx. unfold xs in Hx. rewrite list_lookup_imap in Hx. destruct (work !! i); [|done]. by injection Hx as <-.
      + intros i j x y Hne Hx Hy. unfold xs in Hx, Hy. rewrite list_lookup_imap in Hx, Hy.
        destruct (work !! i) as [js1|] eqn:E1; [|done]. destruct (work !! j) as [js2|] eqn:E2; [|done].
        injection Hx as <-. injection Hy as <-. cbn [snd]. intros k H1 H2. unfold own in *.
        apply elem_of_list_to_set in H1, H2.
        eapply (NoDup_mjoin_disj _ i j); [exact Hids|done|by rewrite list_lookup_fmap, E1|by rewrite list_lookup_fmap, E2|done|done].
      + intros k v t Hkv Hl. rewrite (pok_free _ _ _ Hok _ _ Hkv) in Hl. done.
      + intros id Hid. left. by apply elem_of_dom.
    - intros i x p Hx Hp. unfold xs in Hx. unfold callers in Hp. rewrite list_lookup_imap in Hx. rewrite list_lookup_imap in Hp.
      destruct (work !! i) as [ops|] eqn:E1; [|done]. cbn in Hx, Hp. injection Hx as <-. injection Hp as <-.
      specialize (Hin i ops E1).
      eapply wp_mono; [|apply (wp_caller P okv U D Hdist Hm fuel (deleted s ∪ D) ops i (own ops) (deleted s) s s HP HI (ext_refl s))].
      + intros x r s1 (-> & HI1 & Hx & Hf & Hdl & rs & -> & Hrs). exists ops. split_and!; try done. by exists rs.
      + intros k v Hkv. by rewrite (pok_free _ _ _ Hok _ _ Hkv).
      + done.
      + eapply NoDup_mjoin_at; [exact Hids|]. by rewrite list_lookup_fmap, E1.
      + apply Forall_forall. intros o Ho. specialize (Hin o Ho). destruct o as [level vec id|id|q k]; cbn [op_ok].
        * assert (vec ∈ hist_vecs (mjoin work)) as Hv by (eapply hist_vecs_in; [exact Hin|cbn; set_solver]).
          assert (id ∈ hist_ins (mjoin work)) as Hi by (by eapply hist_ins_in).
          split_and!; [split; [by apply Hd|by left]| | |by apply Hnew].
          -- unfold own. apply elem_of_list_to_set. by eapply hist_ins_in.
          -- unfold U. apply elem_of_union_r. by apply elem_of_list_to_set.
        * unfold D. apply elem_of_list_to_set. by apply hist_del_in.
        * assert (q ∈ hist_vecs (mjoin work)) as Hv by (eapply hist_vecs_in; [exact Hin|cbn; set_solver]).
          split; [split; [by apply Hd|by left]|]. apply elem_of_list_split in Ho as (pre & post & ->).
          apply (Hse pre q k post). by eapply elem_of_list_lookup_2.
      + intros pre q k post ->. apply (Hse pre q k post). by eapply elem_of_list_lookup_2.
      + done.
      + done. }
  destruct (par_reach P okv U Hdist Hm D (dom (nodes s)) Q xs _ _ _ _ Ha Hr) as (xs' & Ha' & Hend).
  { intros i x r s1 (ops & _ & -> & _ & Hf & _). done. }
  destruct Ha' as (Hlen & HW & Hall). pose proof HW as (HI' & Hid' & _ & Hlk' & Hdom').
  split_and!.
  - intros i r Hi. destruct (lookup_lt_is_Some_2 xs' i) as [x Hx]; [rewrite Hlen; by eapply lookup_lt_Some|].
    destruct (Hall i x _ Hx Hi s' (par_refl P okv U D x s')) as (? & _ & _ & _ & _ & _ & rs & -> & _). by exists rs.
  - split; [|apply (inv_ep _ _ _ _ _ HI')]. intros id v l cs c Hn Hl Hc. by eapply inv_conn.
  - destruct Hend as [[rs0 ->]|Hm']; [|by left]. right.
    assert (length xs' = length work) as Hlw.
    { pose proof (rtc_mstep_length _ _ Hr) as Hl. cbn [snd] in Hl. unfold callers in Hl. rewrite imap_length in Hl. by rewrite Hlen, Hl. }
    assert (forall i ops, work !! i = Some ops -> exists rs, rs0 !! i = Some (Val rs) /\ xs' !! i = Some (i, own ops) /\
      ext s s' /\ free i s' /\ delrel D s s' /\ mress P (deleted s) (deleted s ∪ D) ops rs s') as HQ.
    { intros i ops Hi. destruct (lookup_lt_is_Some_2 xs' i) as [x Hx]; [rewrite Hlw; by eapply lookup_lt_Some|].
      destruct (lookup_lt_is_Some_2 rs0 i) as [r Hr']. { rewrite fmap_length in Hlen. rewrite <- Hlen. by eapply lookup_lt_Some. }
      assert ((Done <$> rs0 : list (prog st _)) !! i = Some (Done r)) as Hd' by (by rewrite list_lookup_fmap, Hr').
      destruct (Hall i x _ Hx Hd' s' (par_refl P okv U D x s')) as (ops' & Hi' & -> & H1 & H2 & H3 & rs & -> & H4).
      rewrite Hi in Hi'. injection Hi' as <-. by exists rs. }
    assert (ext s s' /\ delrel D s s') as [HX HD].
    { destruct work as [|ops work'].
      - apply rtc_mstep_nil in Hr as [-> _]. split; [apply ext_refl|by apply delrel_same].
      - destruct (HQ 0 ops eq_refl) as (rs & _ & _ & H1 & _ & H2 & _). done. }
    assert (forall id v, nodes s' !! id = Some v -> vector_of s work id (v_vec v)) as Hback.
    { intros id v Hv. destruct (Hdom' id) as [Hb|(i & x & Hx & Hix)]; [by eexists|..].
      - apply elem_of_dom in Hb as [v0 Hv0]. destruct (HX _ _ Hv0) as (v1 & Hv1 & Hvv & _). left. exists v0. split; [done|]. congruence.
      - destruct (lookup_lt_is_Some_2 work i) as [ops Hi]; [rewrite <- Hlw; by eapply lookup_lt_Some|].
        destruct (HQ i ops Hi) as (rs & _ & Hx' & _ & _ & _ & Hrs). rewrite Hx in Hx'. injection Hx' as ->. cbn in Hix.
        unfold own in Hix. apply elem_of_list_to_set, hist_ins_of in Hix as (level & vec & Hin'). right. exists level.
        pose proof Hin' as Hin2. apply elem_of_list_lookup in Hin2 as [p Hp].
        destruct (mress_lookup _ _ _ _ _ _ _ _ Hrs Hp) as (r & _ & _ & v2 & Hv2 & <- & _).
        rewrite Hv in Hv2. injection Hv2 as <-. by apply (Hin i ops Hi). }
    assert (forall i, i < length rs0 -> exists rs, rs0 !! i = Some (Val rs)) as Hvals.
    { intros i Hi. rewrite fmap_length in Hlen. destruct (lookup_lt_is_Some_2 work i) as [ops Ho]; [lia|].
      destruct (HQ i ops Ho) as (rs & Hrs & _). by exists rs. }
    assert (exists rss, rs0 = Val <$> rss) as [rss ->].
    { clear -Hvals. induction rs0 as [|r rs0 IH]; [by exists []|].
      destruct (Hvals 0) as [rs Hrs]; [cbn; lia|]. cbn in Hrs. injection Hrs as ->.
      destruct IH as [rss ->]. { intros i Hi. apply (Hvals (S i)). cbn. lia. } by exists (rs :: rss). }
    exists rss. split_and!.
    + by rewrite <- list_fmap_compose.
    + apply (Inv_par_ok P n s' U).
      * eapply Inv_okv; [exact HI'|]. intros id v Hv. apply (inv_vec _ _ _ _ _ HI' id v Hv).
      * apply unlocked_free. intros t k v Hkv Hl.
        pose proof (Hlk' k v t Hkv Hl) as Hlt. rewrite Hlw in Hlt. destruct (lookup_lt_is_Some_2 work t Hlt) as [ops Ho].
        destruct (HQ _ _ Ho) as (rs & _ & _ & _ & Hf & _). by apply (Hf k v).
    + done.
    + intros id vec [(v0 & Hv0 & <-)|(level & Hin')].
      * destruct (HX _ _ Hv0) as (v1 & Hv1 & Hvv & _). exists v1. split; [done|congruence].
      * apply elem_of_list_join in Hin' as (ops & Ho & Hw). apply elem_of_list_lookup in Hw as [i Hi].
        apply elem_of_list_lookup in Ho as [p Hp]. destruct (HQ i ops Hi) as (rs & _ & _ & _ & _ & _ & Hrs).
        destruct (mress_lookup _ _ _ _ _ _ _ _ Hrs Hp) as (r & _ & _ & v2 & Hv2 & <- & _). by exists v2.
    + intros id. destruct HD as [HD1 HD2]. split.
      * intros Hx. apply HD2 in Hx. apply elem_of_union in Hx as [Hx|Hx]; [by left|right].
        unfold D in Hx. apply elem_of_list_to_set in Hx. by apply hist_del_in.
      * intros [Hx|Hx]; [by apply HD1|].
        apply elem_of_list_join in Hx as (ops & Ho & Hw). apply elem_of_list_lookup in Hw as [i Hi].
        apply elem_of_list_lookup in Ho as [p Hp]. destruct (HQ i ops Hi) as (rs & _ & _ & _ & _ & _ & Hrs).
        by destruct (mress_lookup _ _ _ _ _ _ _ _ Hrs Hp) as (r & _ & _ & ?).
    + intros i ops p q k Hi Hp. destruct (HQ i ops Hi) as (rs & Hrs & _ & _ & _ & _ & Hm').
      destruct (mress_lookup _ _ _ _ _ _ _ _ Hm' Hp) as (r & Hr' & near & dels & Hlo & Hhi & Hne & Hnl & Hnd & Hev & ->).
      exists rs. eexists. split; [rewrite list_lookup_fmap in Hrs; destruct (rss !! i) as [rs1|]; [|done]; by injection Hrs as ->|].
      split; [exact Hr'|].
      assert (ISearch q k ∈ ops) as Hso by (by eapply elem_of_list_lookup_2).
      assert (0 <= k)%Z as Hk0.
      { apply elem_of_list_split in Hso as (pre & post & ->). apply (Hse pre q k post). by eapply elem_of_list_lookup_2. }
      assert (okv q) as Hq.
      { assert (q ∈ hist_vecs (mjoin work)) as Hv by (eapply hist_vecs_in; [by eapply Hin|cbn; set_solver]).
        split; [by apply Hd|by left]. }
      destruct (answer_of_near P near dels k Hk0 Hnd Hnl) as (A1 & A2 & A3 & A4 & A5 & A6). split; [done|done| |done| |].
      * intros Hnan. apply A3. eapply Forall_impl; [exact Hev|]. intros e. eapply evalid_num; [exact HI'|exact Hq|].
        intros v1 v2 d [_ H1] [_ H2] Hdd. apply num_nan. by apply (Hnan v1 v2 d).
      * intros e He. destruct (A5 e He) as [Hen Hlv]. rewrite Forall_forall in Hev. destruct (Hev e Hen) as (v & Hv & _ & Hdv).
        split_and!.
        -- intros Hx. apply Hlv, Hlo. set_solver.
        -- intros Hx. apply hist_del_in in Hx. apply Hlv, Hlo, elem_of_union_r. by apply elem_of_list_to_set.
        -- exists (v_vec v). split; [by apply Hback|done].
      * intros Hk1 Hde Hnod. apply A6; [done|done|]. unfold D in Hhi. rewrite Hde, Hnod in Hhi. clear -Hhi. set_solver.
Qed.
Print Assumptions C60_mixed_calls.

Definition mix_work : list (list iop) :=
  [[IInsert 0 [1065353216]%N 20%N; ISearch [0]%N 3; IDelete 20%N; ISearch [1065353216]%N 2];
   [IDelete 1%N; IInsert 1 [0]%N 21%N; ISearch [0]%N 2]; [ISearch [1120403456]%N 1]; []].
Example C60_case : params_ok ex_params /\ hp_m ex_params < 2 * hp_mMax ex_params /\ par_ok ex_params 1 ex_st /\
  mix_ok ex_params 1 mix_work ex_st.
Proof.
  split_and!; [apply ex_params_ok|cbn; lia|apply index_ok_par_ok, ex_st_ok|].
  split; [done| |apply (bool_decide_eq_true _); by vm_compute| |].
  - intros v Hv. cbn in Hv. repeat (apply elem_of_cons in Hv as [->|Hv]; [done|]). by apply elem_of_nil in Hv.
  - intros v Hv. cbn in Hv. repeat (apply elem_of_cons in Hv as [->|Hv]; [by vm_compute|]). by apply elem_of_nil in Hv.
  - intros pre q k post Hin. split; [left; apply (bool_decide_eq_true _); by vm_compute|].
    assert (ISearch q k ∈ mjoin mix_work) as Hs.
    { apply elem_of_list_join. eexists. split; [|exact Hin]. set_solver. }
    cbn in Hs. repeat (apply elem_of_cons in Hs as [Hs|Hs]; [try done; injection Hs as -> ->; lia|]). by apply elem_of_nil in Hs.
Qed.
(** The hypothesis on NaN holds for it as well. *)
Example C60_nan_case : mix_no_nan ex_params ex_st mix_work.
Proof.
  assert (forall v, (v ∈ hist_vecs (mjoin mix_work) \/ exists id x, nodes ex_st !! id = Some x /\ v_vec x = v) ->
    v ∈ hist_vecs (mjoin mix_work) ++ ((fun p => v_vec (snd p)) <$> map_to_list (nodes ex_st))) as Hv.
  { intros v [H|(id & x & Hx & <-)]; apply elem_of_app; [by left|right]. apply elem_of_list_fmap. exists (id, x).
    split; [done|]. by apply elem_of_map_to_list. }
  set (l := hist_vecs (mjoin mix_work) ++ _) in Hv.
  assert (forallb (fun v => forallb (fun w => match dist_func (hp_dist ex_params) v w with Val S754_nan => false | _ => true end) l) l = true) as Hall.
  { unfold l. vm_compute. reflexivity. }
  clearbody l. intros v w d H1%Hv H2%Hv Hd ->. rewrite forallb_forall in Hall.
  apply elem_of_list_In in H1. specialize (Hall v H1). rewrite forallb_forall in Hall.
  apply elem_of_list_In in H2. specialize (Hall w H2). by rewrite Hd in Hall.
Qed.
