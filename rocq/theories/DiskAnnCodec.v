(** Lemmas about the DiskANN file format. *)
From Verif Require Import GoBase FloatModel HeapModel MMHeapModel DiskAnnModel.
From Verif Require Import ProofBase CodecProofs.
From stdpp Require Import sorting.
Open Scope nat_scope.

Local Arguments le_put _ _ : simpl never.
Local Arguments zero_bytes _ : simpl never.

Lemma zero_bytes_add n m : zero_bytes n ++ zero_bytes m = zero_bytes (n + m).
Proof. unfold zero_bytes. symmetry; apply replicate_add. Qed.
Lemma zero_bytes_length n : length (zero_bytes n) = n.
Proof. apply replicate_length. Qed.
Lemma zero4 : le_put 4 0 = zero_bytes 4. Proof. reflexivity. Qed.
Lemma zero8 : le_put 8 0 = zero_bytes 8. Proof. reflexivity. Qed.

(** ** One vertex without neighbours *)
Definition floats_enc (v : fvec) : bytes := mjoin (le_put 4 <$> v).
Definition bare_enc (deg : N) (v : dvertex) : bytes :=
  le_put 4 (dv_obj v) ++ floats_enc (dv_vec v) ++ zero_bytes (4 * N.to_nat deg).
Lemma floats_enc_cons x v : floats_enc (x :: v) = le_put 4 x ++ floats_enc v.
Proof. reflexivity. Qed.
Lemma floats_enc_length v : length (floats_enc v) = 4 * length v.
Proof.
  induction v as [|x v IH]; [done|]. rewrite floats_enc_cons. cbn [length].
  rewrite app_length, le_put_length, IH. lia.
Qed.
Lemma bare_enc_length deg v : length (bare_enc deg v) = 4 * (1 + length (dv_vec v) + N.to_nat deg).
Proof. unfold bare_enc. rewrite !app_length, le_put_length, floats_enc_length, zero_bytes_length. lia. Qed.

Lemma dput_floats_zero pre off n v : off = length pre -> 4 * length v <= n ->
  dput_floats (pre ++ zero_bytes n) off v = Val ((pre ++ floats_enc v) ++ zero_bytes (n - 4 * length v), off + 4 * length v).
Proof.
  revert pre off n. induction v as [|x v IH]; intros pre off n Ho Hn; cbn [dput_floats length].
  - unfold floats_enc. cbn. rewrite app_nil_r. f_equal. f_equal; [|lia]. do 2 f_equal. lia.
  - cbn [length] in Hn. rewrite put_u32_zero by lia. cbn [mbind out_bind].
    rewrite IH by (rewrite ?app_length, ?le_put_length; lia). rewrite floats_enc_cons.
    rewrite <- !app_assoc. f_equal. f_equal; [|lia]. do 4 f_equal. lia.
Qed.
Lemma dput_pad_zero pre off n k : off = length pre -> 4 * k <= n ->
  dput_pad (pre ++ zero_bytes n) off k = Val (pre ++ zero_bytes n, off + 4 * k).
Proof.
  revert pre off n. induction k as [|k IH]; intros pre off n Ho Hn; cbn [dput_pad].
  - f_equal. f_equal. lia.
  - rewrite put_u32_zero by lia. cbn [mbind out_bind]. rewrite IH by (rewrite ?app_length, ?le_put_length; lia).
    rewrite <- app_assoc, zero4, zero_bytes_add. f_equal. f_equal; [|lia]. do 2 f_equal. lia.
Qed.
Lemma ser_vertex_bare pre off n v deg :
  dv_nbrs v = [] -> off = length pre -> length (bare_enc deg v) <= n ->
  ser_vertex (pre ++ zero_bytes n) off v deg
  = Val ((pre ++ bare_enc deg v) ++ zero_bytes (n - length (bare_enc deg v)), off + length (bare_enc deg v)).
Proof.
  intros Hnb Ho. rewrite bare_enc_length. intros Hn. unfold ser_vertex. rewrite put_u32_zero by lia. cbn [mbind out_bind].
  rewrite dput_floats_zero by (rewrite ?app_length, ?le_put_length; lia). cbn [mbind out_bind].
  rewrite Hnb. cbn [dput_nbrs length]. cbn [mbind out_bind].
  rewrite dput_pad_zero by (rewrite ?app_length, ?le_put_length, ?floats_enc_length; lia).
  unfold bare_enc. rewrite <- !app_assoc. rewrite zero_bytes_add. f_equal. f_equal; [|lia]. do 4 f_equal. lia.
Qed.

Lemma dget_floats_app pre off v suf : off = length pre -> Forall (fun x => x < 2 ^ 32)%N v ->
  dget_floats (pre ++ floats_enc v ++ suf) off (length v) = Val (v, off + 4 * length v).
Proof.
  revert pre off. induction v as [|x v IH]; intros pre off Ho Hv; cbn [dget_floats length].
  - do 2 f_equal. lia.
  - inversion_clear Hv as [|?? Hx Hv']. rewrite floats_enc_cons.
    rewrite <- app_assoc. rewrite get_u32_app by done. cbn [mbind out_bind].
    rewrite app_assoc.
    rewrite IH by (done || (rewrite ?app_length, ?le_put_length; lia)). cbn [mbind out_bind]. do 2 f_equal. lia.
Qed.
Lemma dget_nbrs_zero pre off k suf : off = length pre -> k <> 1 ->
  dget_nbrs (pre ++ zero_bytes (4 * k) ++ suf) off k = Val ([], off + 4 * k).
Proof.
  intros Ho Hk. destruct k as [|k]; cbn [dget_nbrs]; [do 2 f_equal; lia|].
  replace (4 * S k) with (8 + (4 * S k - 8)) by lia. rewrite <- zero_bytes_add, <- app_assoc, <- zero8.
  rewrite get_u64_app by (done || lia). cbn [mbind out_bind N.eqb]. do 2 f_equal. lia.
Qed.
Lemma de_vertex_bare pre off v suf id dim deg :
  off = length pre -> dv_nbrs v = [] -> dv_id v = id -> N.of_nat (length (dv_vec v)) = dim ->
  (dv_obj v < 2 ^ 32)%N -> Forall (fun x => x < 2 ^ 32)%N (dv_vec v) -> deg <> 1%N ->
  de_vertex (pre ++ bare_enc deg v ++ suf) off id dim deg = Val (v, off + length (bare_enc deg v)).
Proof.
  intros Ho Hnb Hid <- Hobj Hvec Hdeg. rewrite bare_enc_length. unfold de_vertex, bare_enc. rewrite <- !app_assoc.
  rewrite get_u32_app by done. cbn [mbind out_bind]. rewrite app_assoc.
  rewrite Nat2N.id, dget_floats_app by (done || (rewrite ?app_length, ?le_put_length; lia)). cbn [mbind out_bind].
  rewrite (app_assoc _ (floats_enc _)).
  rewrite dget_nbrs_zero by (rewrite ?app_length, ?le_put_length, ?floats_enc_length; unfold fvec, f32 in *; lia). cbn [mbind out_bind].
  destruct v as [i o ns ve]. cbn in *. subst. do 2 f_equal. unfold fvec, f32 in *. lia.
Qed.

(** ** Consecutive ids *)
Fixpoint seqn (a : N) (n : nat) : list N :=
  match n with O => [] | S n' => a :: seqn (a + 1) n' end.
Lemma seqn_length a n : length (seqn a n) = n.
Proof. revert a; induction n as [|n IH]; intros a; cbn [seqn length]; [done|]. by rewrite IH. Qed.
Lemma elem_of_seqn x a n : x ∈ seqn a n <-> (a <= x < a + N.of_nat n)%N.
Proof.
  revert a. induction n as [|n IH]; intros a; cbn [seqn].
  - split; [intros H; by inversion H|]. lia.
  - rewrite elem_of_cons, IH. lia.
Qed.
Lemma seqn_NoDup a n : NoDup (seqn a n).
Proof.
  revert a. induction n as [|n IH]; intros a; cbn [seqn]; constructor; [|done]. rewrite elem_of_seqn. lia.
Qed.
Lemma seqn_sorted a n : StronglySorted N.le (seqn a n).
Proof.
  revert a. induction n as [|n IH]; intros a; cbn [seqn]; constructor; [done|].
  apply Forall_forall. intros x Hx%elem_of_seqn. lia.
Qed.
Lemma seqn_take a n k : take k (seqn a n) = seqn a (Nat.min k n).
Proof.
  revert a n. induction k as [|k IH]; intros a [|n]; cbn [seqn take Nat.min]; try done. by rewrite IH.
Qed.
Lemma seqn_drop a n k : k <= n -> drop k (seqn a n) = seqn (a + N.of_nat k) (n - k).
Proof.
  revert a n. induction k as [|k IH]; intros a [|n] Hk; cbn [seqn drop]; try lia.
  - done.
  - rewrite Nat.sub_0_r. replace (a + N.of_nat 0)%N with a by lia. done.
  - rewrite IH by lia. cbn [Nat.sub]. f_equal. lia.
Qed.

(** the ids are first, first+1, ... *)
Lemma sorted_ids_seqn g first :
  (forall x, x ∈ dom g <-> (first <= x < first + N.of_nat (size g))%N) ->
  sorted_ids g = seqn first (size g).
Proof.
  intros H. unfold sorted_ids.
  apply (StronglySorted_unique N.le).
  - apply (StronglySorted_merge_sort N.le).
  - apply seqn_sorted.
  - rewrite merge_sort_Permutation. apply NoDup_Permutation; [apply NoDup_elements|apply seqn_NoDup|].
    intros x. rewrite elem_of_elements, elem_of_seqn. apply H.
Qed.

(** ** A page *)
Section pages.
  Context (g : gmap N dvertex) (dim deg : N).
  Definition bare : Prop := forall i v, g !! i = Some v ->
    dv_id v = i /\ dv_nbrs v = [] /\ N.of_nat (length (dv_vec v)) = dim /\ (dv_obj v < 2 ^ 32)%N /\
    Forall (fun x => x < 2 ^ 32)%N (dv_vec v) /\ (i < 2 ^ 64)%N.
  Definition venc (i : N) : bytes := match g !! i with Some v => bare_enc deg v | None => [] end.
  Definition vsize : nat := 4 * (1 + N.to_nat dim + N.to_nat deg).

  Lemma venc_length i : bare -> i ∈ dom g -> length (venc i) = vsize.
  Proof.
    intros Hb [v Hv]%elem_of_dom. unfold venc, vsize. rewrite Hv, bare_enc_length.
    destruct (Hb _ _ Hv) as (_ & _ & Hl & _). lia.
  Qed.

  Lemma ser_vertices_bare pre off n ids : bare -> off = length pre -> Forall (fun i => i ∈ dom g) ids ->
    vsize * length ids <= n ->
    ser_vertices (pre ++ zero_bytes n) off g ids deg
    = Val (pre ++ mjoin (venc <$> ids) ++ zero_bytes (n - vsize * length ids)).
  Proof.
    intros Hb. revert pre off n. induction ids as [|i ids IH]; intros pre off n Ho Hi Hn; cbn [ser_vertices length].
    - cbn. do 3 f_equal. lia.
    - inversion_clear Hi as [|?? Hi1 Hi2]. pose proof (venc_length i Hb Hi1) as Hl.
      cbn [fmap list_fmap mjoin list_join]. cbn [length] in Hn.
      apply elem_of_dom in Hi1 as [v Hv]. assert (venc i = bare_enc deg v) as Ev by (unfold venc; by rewrite Hv).
      rewrite Ev in Hl |- *. rewrite Hv. cbn [or_pan mbind out_bind].
      destruct (Hb _ _ Hv) as (_ & Hnb & _).
      rewrite ser_vertex_bare by (done || lia). cbn [mbind out_bind].
      rewrite IH by (rewrite ?app_length; (done || lia)). rewrite <- !app_assoc. do 5 f_equal. lia.
  Qed.

  Lemma de_vertices_bare pre off suf g0 a n : bare -> deg <> 1%N -> off = length pre ->
    (forall x, x ∈ seqn a n -> x ∈ dom g) ->
    exists g', de_vertices (pre ++ mjoin (venc <$> seqn a n) ++ suf) off g0 n a dim deg = Val g' /\
      forall i, g' !! i = if bool_decide (i ∈ seqn a n) then g !! i else g0 !! i.
  Proof.
    intros Hb Hdeg. revert pre off g0 a. induction n as [|n IH]; intros pre off g0 a Ho Hin; cbn [de_vertices].
    { exists g0. split; [done|]. intros i. by rewrite bool_decide_false by (intros H; inversion H). }
    cbn [seqn fmap list_fmap mjoin list_join].
    destruct (elem_of_dom g a) as [Ha _]. destruct Ha as [v Hv]; [apply Hin; by left|].
    destruct (Hb _ _ Hv) as (Hid & Hnb & Hl & Hob & Hvec & Hlt). assert (venc a = bare_enc deg v) as Ev by (unfold venc; by rewrite Hv).
    rewrite Ev, <- !app_assoc.
    rewrite de_vertex_bare by done. cbn [mbind out_bind]. rewrite app_assoc.
    assert (n = 0 \/ u64 (a + 1) = (a + 1)%N) as Hnext.
    { destruct n as [|n]; [by left|right]. apply u64_small.
      assert (a + 1 ∈ dom g)%N as [w Hw]%elem_of_dom by (apply Hin; right; left). by destruct (Hb _ _ Hw) as (_ & _ & _ & _ & _ & ?). }
    assert (forall x, x ∈ seqn (a + 1) n -> x ∈ dom g) as Hin' by (intros x Hx; apply Hin; by right).
    destruct (IH (pre ++ bare_enc deg v) (off + length (bare_enc deg v)) (<[a := v]> g0) (a + 1)%N) as (g' & E & Hg'); [by rewrite app_length, Ho|done|].
    exists g'. split.
    - destruct Hnext as [-> | ->]; done.
    - intros i. rewrite Hg'. rewrite !bool_decide_decide. destruct (decide (i ∈ seqn (a + 1) n)) as [Hi|Hi].
      + rewrite decide_True by (by right). done.
      + destruct (decide (i = a)) as [-> |Hne].
        * rewrite decide_True by left. by rewrite lookup_insert.
        * rewrite decide_False by (intros [?|?]%elem_of_cons; done). by rewrite lookup_insert_ne.
  Qed.

  Lemma ser_pages_bare n k a m : bare -> deg <> 1%N -> 0 < k -> vsize * k <= page_size -> m <= n ->
    (forall x, x ∈ seqn a m -> x ∈ dom g) ->
    exists ps, ser_pages n k g (seqn a m) deg = Val ps /\
      forall f i g0 n', drop i f = ps -> m <= n' ->
        exists g', de_pages n' f i k m a dim deg g0 = Val g' /\
          forall j, g' !! j = if bool_decide (j ∈ seqn a m) then g !! j else g0 !! j.
  Proof.
    intros Hb Hdeg Hk Hsz. revert a m. induction n as [|n IH]; intros a m Hm Hin.
    { assert (m = 0) as -> by lia. exists []. split; [done|]. intros f i g0 n' _ _. exists g0. split; [by destruct n'|].
      intros j. by rewrite bool_decide_false by (intros H; inversion H). }
    destruct m as [|m0] eqn:Em.
    { exists []. split; [done|]. intros f i g0 n' _ _. exists g0. split; [by destruct n'|].
      intros j. by rewrite bool_decide_false by (intros H; inversion H). }
    rewrite <- Em in *. assert (0 < m) as Hm0 by lia.
    assert (ser_pages (S n) k g (seqn a m) deg
      = (p ← ser_vertices (zero_bytes page_size) 0 g (take k (seqn a m)) deg;
         ps ← ser_pages n k g (drop k (seqn a m)) deg; Val (p :: ps))) as ->.
    { rewrite Em. reflexivity. }
    rewrite seqn_take. set (c := Nat.min k m).
    assert (forall x, x ∈ seqn a c -> x ∈ dom g) as Hc.
    { intros x Hx. apply Hin. rewrite elem_of_seqn in *. lia. }
    pose proof (ser_vertices_bare [] 0 page_size (seqn a c) Hb eq_refl) as Es. cbn [app] in Es. rewrite Es; clear Es.
    2: { apply Forall_forall. exact Hc. }
    2: { rewrite seqn_length. unfold c. nia. }
    cbn [mbind out_bind].
    assert (drop k (seqn a m) = seqn (a + N.of_nat c) (m - c)) as ->.
    { destruct (decide (k <= m)) as [Hkm|Hkm].
      - rewrite seqn_drop by done. unfold c. by rewrite Nat.min_l by lia.
      - rewrite drop_ge by (rewrite seqn_length; lia). unfold c. rewrite Nat.min_r by lia. by rewrite Nat.sub_diag. }
    assert (0 < c <= m) as Hcm by (unfold c; lia).
    destruct (IH (a + N.of_nat c)%N (m - c)) as (ps & Ep & Hps); [lia| |].
    { intros x Hx. apply Hin. rewrite elem_of_seqn in *. lia. }
    rewrite Ep. cbn [mbind out_bind]. eexists. split; [reflexivity|].
    intros f i g0 n' Hf Hn'. destruct n' as [|n']; [lia|].
    assert (de_pages (S n') f i k m a dim deg g0
      = (p ← read_page f i; g' ← de_vertices p 0 g0 c a dim deg;
         de_pages n' f (S i) k (m - c) (u64 (a + N.of_nat c)) dim deg g')) as ->.
    { unfold c. rewrite Em. reflexivity. }
    unfold read_page. rewrite <- (Nat.add_0_r i), <- lookup_drop, Hf. cbn [lookup list_lookup]. cbn [mbind out_bind].
    destruct (de_vertices_bare [] 0 (zero_bytes (page_size - vsize * length (seqn a c))) g0 a c) as (g1 & E1 & H1); [done..|].
    cbn [app] in E1. rewrite E1. cbn [mbind out_bind].
    destruct (Hps f (S i) g1 n') as (g' & E' & H'); [|lia|].
    { replace (S i) with (i + 1) by lia. rewrite <- drop_drop, Hf. done. }
    exists g'. split.
    - destruct (decide (m - c = 0)) as [E0|E0].
      + rewrite E0 in *. rewrite Nat.add_0_r. destruct n'; exact E'.
      + rewrite Nat.add_0_r. rewrite u64_small; [exact E'|].
        assert (a + N.of_nat c ∈ dom g)%N as [w Hw]%elem_of_dom by (apply Hin; rewrite elem_of_seqn; lia).
        by destruct (Hb _ _ Hw) as (_ & _ & _ & _ & _ & ?).
    - intros j. rewrite H', H1, !bool_decide_decide.
      destruct (decide (j ∈ seqn (a + N.of_nat c) (m - c))) as [Hj|Hj].
      + rewrite decide_True; [done|]. rewrite elem_of_seqn in *. lia.
      + destruct (decide (j ∈ seqn a c)) as [Hj'|Hj'].
        * rewrite decide_True; [done|]. rewrite elem_of_seqn in *. lia.
        * rewrite decide_False; [done|]. rewrite !elem_of_seqn in *. lia.
  Qed.
End pages.

(** ** The metadata page *)
Lemma meta_round mi n : 28 <= n -> (mi_dim mi < 2 ^ 32)%N -> (mi_deg mi < 2 ^ 32)%N -> (mi_first mi < 2 ^ 64)%N ->
  (mi_s mi < 2 ^ 64)%N ->
  exists b, ser_meta (zero_bytes n) mi = Val b /\ length b = n /\
    de_meta b = Val (mi_dim mi, mi_deg mi, mi_first mi, mi_count mi, mi_s mi).
Proof.
  intros Hn H1 H2 H3 H4. unfold ser_meta.
  pose proof (put_u32_zero [] 0 n (mi_dim mi)) as E. cbn [app] in E. rewrite E by (done || lia). clear E. cbn [mbind out_bind].
  rewrite put_u32_zero by (rewrite ?app_length, ?le_put_length; lia). cbn [mbind out_bind].
  rewrite put_u64_zero by (rewrite ?app_length, ?le_put_length; lia). cbn [mbind out_bind].
  rewrite put_u32_zero by (rewrite ?app_length, ?le_put_length; lia). cbn [mbind out_bind].
  rewrite put_u64_zero by (rewrite ?app_length, ?le_put_length; lia).
  eexists. split; [reflexivity|]. split.
  { rewrite !app_length, !le_put_length, zero_bytes_length. lia. }
  unfold de_meta. rewrite <- !app_assoc.
  rewrite get_u32_head by done. cbn [mbind out_bind].
  rewrite (get_u32_app (le_put 4 (mi_dim mi)) 4) by (rewrite ?le_put_length; done). cbn [mbind out_bind].
  rewrite app_assoc. rewrite (get_u64_app _ 8) by (rewrite ?app_length, ?le_put_length; done). cbn [mbind out_bind].
  rewrite app_assoc. rewrite (get_u32_app _ 16) by (rewrite ?app_length, ?le_put_length; (done || apply u32_lt)). cbn [mbind out_bind].
  rewrite app_assoc. rewrite (get_u64_app _ 20) by (rewrite ?app_length, ?le_put_length; done). done.
Qed.
