(** Batches of pointers (PtrModel) against batches of values (CollModel). *)
From stdpp Require Import relations.
From Verif Require Import GoBase FloatModel HeapModel ProgModel StateModel WalModel HnswModel StoreModel CollModel CallModel PtrModel
  ProofBase WpProofs StepProofs.
Open Scope nat_scope.

(** ** One thread *)
Definition agree (K : gset nat) (m m' : cmem) : Prop := forall q, q ∈ K -> m q = m' q.
Definition same_content (m m' : cmem) : Prop := forall q, o_props (m' q) = o_props (m q) /\ o_vec (m' q) = o_vec (m q).
Definition vals (m : cmem) (pc : list (nat * nat)) : list (object * nat) := (fun pl => (m (fst pl), snd pl)) <$> pc.
Definition keep_chan (s s' : st) : Prop := chan s' = chan s.

Lemma agree_refl K m : agree K m m. Proof. done. Qed.
Lemma agree_trans K a b c : agree K a b -> agree K b c -> agree K a c.
Proof. intros H1 H2 q Hq. by rewrite H1, H2. Qed.
Lemma agree_sym K a b : agree K a b -> agree K b a. Proof. intros H q Hq. by rewrite H. Qed.

(** The thread [P] of the one and [Q] of the other: [P] owns the objects [K],
    which look like [hl].  It does a step of [Q], or one on its objects, or
    takes a pointer from the channel. *)
Fixpoint sm {A B} (K : gset nat) (hl : cmem) (P : prog pst A) (Q : prog st B) (Φ : gset nat -> cmem -> A -> B -> Prop) : Prop :=
  match P with
  | Done (Val a) => exists b, Q = Done (Val b) /\ Φ K hl a b
  | Done (Err e) => Q = Done (Err e)
  | Done (Pan z) => Q = Done (Pan z)
  | Step f =>
      (exists g, Q = Step g /\ forall s m pc, agree K hl m ->
         match f (PSt s m pc), g s with
         | None, None => True
         | Some (x', p'), Some (s', q') => x' = PSt s' m pc /\ chan s' = chan s /\ sm K m p' q' Φ
         | _, _ => False
         end) \/
      (forall s m pc, agree K hl m ->
         match f (PSt s m pc) with
         | Some (x', p') => exists m', x' = PSt s m' pc /\ (forall q, q ∉ K -> m' q = m q) /\ same_content m m' /\ sm K m' p' Q Φ
         | None => False
         end) \/
      (exists g, Q = Step g /\ forall s m pc, agree K hl m -> chan s = vals m pc ->
         match f (PSt s m pc), g s with
         | Some (x', p'), Some (s', q') =>
             match pc with
             | [] => x' = PSt s' m pc /\ chan s' = [] /\ sm K m p' q' Φ
             | pl :: pc' => x' = PSt s' m pc' /\ chan s' = vals m pc' /\ (fst pl ∉ K -> sm ({[fst pl]} ∪ K) m p' q' Φ)
             end
         | _, _ => False
         end)
  end.

Lemma sm_mono {A B} K hl (P : prog pst A) (Q : prog st B) (Φ Ψ : gset nat -> cmem -> A -> B -> Prop) :
  (forall K' hl' a b, Φ K' hl' a b -> Ψ K' hl' a b) -> sm K hl P Q Φ -> sm K hl P Q Ψ.
Proof.
  intros HF. revert K hl Q. induction P as [r|f IH] using prog_ind'; intros K hl Q.
  - destruct r; [|done..]. intros (b & -> & Hb). exists b. auto.
  - intros [(g & -> & H)|[H|(g & -> & H)]]; [left; exists g; split; [done|]|right; left|right; right; exists g; split; [done|]].
    + intros s m pc Ha. specialize (H s m pc Ha). destruct (f _) as [[x' p']|] eqn:E; [|done]. destruct (g s) as [[s' q']|]; [|done].
      destruct H as (-> & Hc & H). split_and!; [done|done|]. by eapply IH.
    + intros s m pc Ha. specialize (H s m pc Ha). destruct (f _) as [[x' p']|] eqn:E; [|done].
      destruct H as (m' & -> & H1 & H2 & H). exists m'. split_and!; try done. by eapply IH.
    + intros s m pc Ha Hc. specialize (H s m pc Ha Hc). destruct (f _) as [[x' p']|] eqn:E; [|done]. destruct (g s) as [[s' q']|]; [|done].
      destruct pc as [|pl pc']; destruct H as (-> & H1 & H); (split_and!; [done|done|]); [by eapply IH|]. intros Hn. eapply IH; [done|by apply H].
Qed.
Lemma sm_bind {A B A' B'} K hl (P : prog pst A) (Q : prog st B) (k : A -> prog pst A') (k' : B -> prog st B')
    (Φ : gset nat -> cmem -> A -> B -> Prop) (Ψ : gset nat -> cmem -> A' -> B' -> Prop) :
  sm K hl P Q Φ -> (forall K' hl' a b, Φ K' hl' a b -> sm K' hl' (k a) (k' b) Ψ) -> sm K hl (P ≫= k) (Q ≫= k') Ψ.
Proof.
  intros HP Hk. change (P ≫= k) with (pbind P k). change (Q ≫= k') with (pbind Q k'). revert K hl Q HP.
  induction P as [r|f IH] using prog_ind'; intros K hl Q HP.
  - destruct r; cbn in HP |- *; [|by subst Q..]. destruct HP as (b & -> & Hb). by apply Hk.
  - cbn [pbind sm] in *. destruct HP as [(g & -> & H)|[H|(g & -> & H)]].
    + left. eexists. split; [reflexivity|]. intros s m pc Ha. specialize (H s m pc Ha).
      destruct (f _) as [[x' p']|] eqn:E; destruct (g s) as [[s' q']|]; try done. destruct H as (-> & Hc & H). split_and!; [done|done|]. by eapply IH.
    + right. left. intros s m pc Ha. specialize (H s m pc Ha). destruct (f _) as [[x' p']|] eqn:E; [|done].
      destruct H as (m' & -> & H1 & H2 & H). exists m'. split_and!; try done. by eapply IH.
    + right. right. eexists. split; [reflexivity|]. intros s m pc Ha Hc. specialize (H s m pc Ha Hc).
      destruct (f _) as [[x' p']|] eqn:E; [|done]. destruct (g s) as [[s' q']|]; [|done].
      destruct pc as [|pl pc']; destruct H as (-> & H1 & H); (split_and!; [done|done|]); [by eapply IH|]. intros Hn. eapply IH; [done|by apply H].
Qed.

(** The objects of a thread may look different as long as it cannot tell. *)
Lemma sm_agree {A B} K hl hl' (P : prog pst A) (Q : prog st B) (Φ : gset nat -> cmem -> A -> B -> Prop) :
  (forall a b, Φ K hl a b -> Φ K hl' a b) -> agree K hl hl' -> sm K hl P Q Φ -> sm K hl' P Q Φ.
Proof.
  intros HF Ha. destruct P as [r|f].
  - destruct r; [|done..]. intros (b & -> & Hb). exists b. auto.
  - cbn. intros [(g & -> & H)|[H|(g & -> & H)]]; [left; exists g; split; [done|]|right; left|right; right; exists g; split; [done|]];
      intros s m pc Hm; apply H; by eapply agree_trans.
Qed.

Lemma sm_on_st {A} K hl (q : prog st A) : steps keep_chan q -> sm K hl (on_st q) q (fun K' hl' a b => K' = K /\ a = b /\ agree K hl hl').
Proof.
  intros Hst. cut (forall hl0, agree K hl0 hl -> sm K hl (on_st q) q (fun K' hl' a b => K' = K /\ a = b /\ agree K hl0 hl')); [by intros H; apply H|].
  revert hl. induction q as [r|f IH] using prog_ind'; intros hl hl0 Ha.
  - destruct r; try done. eexists. done.
  - cbn [on_st sm]. left. exists f. split; [done|]. intros s m pc Hm. cbn [p_st p_mem p_chan]. specialize (Hst s).
    destruct (f s) as [[s' q']|] eqn:E; [|done]. destruct Hst as [Hc Hst]. split_and!; [done|done|].
    eapply IH; [exact E|done|]. by eapply agree_trans.
Qed.
Lemma sm_heap {A A' B} K hl (f : pst -> pst * out A) (k : A -> prog pst A') (Q : prog st B) (Ψ : gset nat -> cmem -> A' -> B -> Prop) :
  (forall s m pc, agree K hl m -> exists m' a, f (PSt s m pc) = (PSt s m' pc, Val a) /\ (forall q, q ∉ K -> m' q = m q) /\ same_content m m' /\ sm K m' (k a) Q Ψ) ->
  sm K hl (act f ≫= k) Q Ψ.
Proof.
  intros H. change (act f ≫= k) with (pbind (act f) k). unfold act. cbn [pbind sm]. right. left. intros s m pc Ha.
  destruct (H s m pc Ha) as (m' & a & -> & H1 & H2 & H3). by exists m'.
Qed.
Lemma sm_read {A A' B} K hl (g : object -> A) p (k : A -> prog pst A') (Q : prog st B) (Ψ : gset nat -> cmem -> A' -> B -> Prop) :
  p ∈ K -> (forall m, agree K hl m -> sm K m (k (g (hl p))) Q Ψ) -> sm K hl (read_at g p ≫= k) Q Ψ.
Proof. intros Hp H. apply sm_heap. intros s m pc Ha. exists m, (g (m p)). split_and!; try done. rewrite <- (Ha p Hp). by apply H. Qed.

Lemma fetch_keep_chan : steps keep_chan fetch_and_inc.
Proof. apply steps_act. intros s. unfold keep_chan. by destruct (closed s). Qed.
Lemma put_keep_chan J maxv o : steps keep_chan (put_object J maxv o).
Proof.
  unfold put_object. apply steps_bind; [apply steps_lift|intros ob]. apply steps_bind; [apply steps_lift|intros vb].
  apply steps_bind; [|intros _]; apply steps_act; intros s; unfold keep_chan; destruct (bc_put _ _ _ _); try done; by destruct (closed s).
Qed.
Lemma steps_mono {S A} (R R' : S -> S -> Prop) (p : prog S A) : (forall s s', R s s' -> R' s s') -> steps R p -> steps R' p.
Proof.
  intros HR. induction p as [r|f IH] using prog_ind'; [done|]. cbn. intros H s. specialize (H s). destruct (f s) as [[s' p']|] eqn:E; [|done].
  destruct H as [H1 H2]. split; [by apply HR|]. by eapply IH.
Qed.
Lemma insert_keep_chan P t fuel level vec id : steps keep_chan (hnsw_insert P t fuel level vec id).
Proof. eapply steps_mono; [|apply insert_keep_store]. intros s s' (_ & _ & _ & _ & _ & _ & H & _). exact H. Qed.

Section thread.
  Context (C : cparams).

  Lemma sm_insert K hl tid level p : p ∈ K ->
    sm K hl (insert_ptr C tid level p) (insert_one C tid level (hl p))
      (fun K' hl' a b => K' = K /\ a = p /\ b = hl' p /\ forall q, q ∈ K -> q <> p -> hl' q = hl q).
  Proof.
    intros Hp. unfold insert_ptr, insert_one.
    eapply sm_bind; [apply sm_on_st, fetch_keep_chan|]. intros K' hl1 id ? (-> & <- & H1).
    apply sm_heap. intros s m pc Ha. eexists _, _. split; [reflexivity|].
    pose proof (agree_trans _ _ _ _ H1 Ha) as Hm.
    split_and!.
    { intros q Hq. unfold mset. destruct (Nat.eqb_spec q p) as [->|]; done. }
    { intros q. unfold mset. destruct (Nat.eqb_spec q p) as [->|]; done. }
    cbn [p_mem]. set (m1 := mset p _ m). assert (E1 : m1 p = Object id (o_props (hl p)) (o_vec (hl p))).
    { unfold m1, mset. rewrite Nat.eqb_refl. by rewrite (Hm p Hp). }
    assert (E2 : forall q, q ∈ K -> q <> p -> m1 q = hl q).
    { intros q Hq Hne. unfold m1, mset. destruct (Nat.eqb_spec q p); [done|]. by rewrite (Hm q Hq). }
    clearbody m1. clear s m pc Ha Hm H1 hl1.
    apply sm_read; [done|]. intros m2 H2. apply sm_read; [done|]. intros m3 H3. apply sm_read; [done|]. intros m4 H4.
    assert (H14 : agree K m1 m4) by (exact (agree_trans _ _ _ _ H2 (agree_trans _ _ _ _ H3 H4))).
    pose proof (agree_trans _ _ _ _ H2 H3) as H13.
    rewrite <- (H2 p Hp), <- (H13 p Hp), E1. cbn [o_id o_props o_vec].
    eapply sm_bind; [apply sm_on_st, put_keep_chan|]. intros K' m5 [] [] (-> & _ & H5).
    apply sm_read; [done|]. intros m6 H6. apply sm_read; [done|]. intros m7 H7.
    pose proof (agree_trans _ _ _ _ H14 H5) as H15.
    pose proof (agree_trans _ _ _ _ H15 H6) as H16.
    pose proof (agree_trans _ _ _ _ H16 H7) as H17.
    rewrite <- (H15 p Hp), <- (H16 p Hp), E1. cbn [o_id o_props o_vec].
    eapply sm_bind; [apply sm_on_st, insert_keep_chan|]. intros K' m8 [] [] (-> & _ & H8).
    pose proof (agree_trans _ _ _ _ H17 H8) as H18.
    eexists. split; [reflexivity|]. split_and!; [done|done| |].
    - by rewrite <- (H18 p Hp), E1.
    - intros q Hq Hne. by rewrite <- (H18 q Hq), E2.
  Qed.

  (** What a worker has at its end: the objects it reports are the ones it
      owns, as they look now. *)
  Definition reports (K : gset nat) (hl : cmem) (a : list nat) (b : list object) : Prop :=
    b = hl <$> a /\ NoDup a /\ forall q, q ∈ a <-> q ∈ K.
  Lemma reports_agree K hl hl' a b : agree K hl hl' -> reports K hl a b -> reports K hl' a b.
  Proof. intros Ha (-> & Hn & Hk). split_and!; try done. apply list_fmap_ext. intros i q Hi. apply Ha, Hk. by eapply elem_of_list_lookup_2. Qed.

  Lemma sm_worker K hl tid ps : NoDup ps.*1 -> (forall q, q ∈ ps.*1 -> q ∈ K) ->
    sm K hl (worker_ptr C tid ps) (worker C tid (vals hl ps))
      (fun K' hl' a b => K' = K /\ a = ps.*1 /\ b = hl' <$> a /\ forall q, q ∈ K -> q ∉ ps.*1 -> hl' q = hl q).
  Proof.
    revert hl. induction ps as [|[p level] ps IH]; intros hl Hnd Hin.
    { eexists. done. }
    cbn in Hnd, Hin. apply NoDup_cons in Hnd as [Hp Hnd]. cbn [worker_ptr worker vals fmap list_fmap fst snd].
    eapply sm_bind; [apply sm_insert, Hin; by left|]. intros K' m1 ? ? (-> & -> & -> & H1).
    assert (E : vals hl ps = vals m1 ps).
    { apply list_fmap_ext. intros i [q l] Hi. cbn. assert (Hq : q ∈ ps.*1) by (apply elem_of_list_fmap; exists (q, l); split; [done|by eapply elem_of_list_lookup_2]).
      rewrite H1; [done|apply Hin; by right|]. by intros ->. }
    change ((fun pl : nat * nat => (hl pl.1, pl.2)) <$> ps) with (vals hl ps). rewrite E.
    eapply sm_bind; [apply IH; [done|]; intros q Hq; apply Hin; by right|]. intros K' m2 ? ? (-> & -> & -> & H2).
    eexists. split; [reflexivity|]. split_and!; [done|done| |].
    - cbn. f_equal. symmetry. apply H2; [|done]. apply Hin. by left.
    - intros q Hq Hn. cbn in Hn. apply not_elem_of_cons in Hn as [Hne Hn]. rewrite H2 by done. by apply H1.
  Qed.

  Lemma here (p : nat) (K : gset nat) : p ∈ ({[p]} ∪ K : gset nat).
  Proof. clear. apply elem_of_union_l, elem_of_singleton. done. Qed.
  Lemma sm_worker2 n K hl tid :
    sm K hl (worker2_ptr C n tid) (worker2 C n tid)
      (fun K' hl' a b => b = hl' <$> a /\ NoDup a /\ (forall q, q ∈ a -> q ∉ K) /\ (forall q, q ∈ K' <-> q ∈ K \/ q ∈ a) /\ agree K hl hl').
  Proof.
    revert K hl. induction n as [|n IH]; intros K hl.
    all: cbn [worker2_ptr worker2]; match goal with |- sm _ _ (?P ≫= ?k) (?Q ≫= ?k') ?Ψ => change (P ≫= k) with (pbind P k); change (Q ≫= k') with (pbind Q k') end.
    all: unfold act; cbn [pbind sm]; right; right; eexists; (split; [reflexivity|]); intros s m pc Ha Hc; cbn [p_chan p_st p_mem].
    all: destruct pc as [|[p level] pc]; cbn in Hc; rewrite Hc; cbn [tail].
    1, 3: split_and!; try done; eexists; (split; [reflexivity|]); split_and!; try done; [constructor|by intros q ?%elem_of_nil|intros q; rewrite elem_of_nil; tauto].
    - split_and!; [done|done|]. intros Hn. cbn [fst] in *. eapply sm_bind; [apply sm_insert, here|]. intros K' m1 ? ? (-> & -> & -> & H1). done.
    - split_and!; [done|done|]. intros Hn. cbn [fst] in *. eapply sm_bind; [apply sm_insert, here|]. intros K' m1 ? ? (-> & -> & -> & H1).
      eapply sm_bind; [apply IH|]. clear IH. intros K' m2 a b (-> & Hnd & Hd & HK & H2). eexists. split; [reflexivity|].
      assert (Hd' : forall q, q ∈ a -> q <> p /\ q ∉ K).
      { intros q Hq. apply Hd in Hq. apply not_elem_of_union in Hq as [Hq1 Hq2]. split; [|done]. intros ->; by apply Hq1, elem_of_singleton. }
      split_and!.
      + cbn. f_equal. apply H2, here.
      + constructor; [|done]. intros Hin. by apply Hd' in Hin as [].
      + intros q [->|Hq]%elem_of_cons; [done|]. by apply Hd'.
      + intros q. rewrite HK, elem_of_cons, elem_of_union, elem_of_singleton. tauto.
      + intros q Hq. assert (Hq' : q ∈ {[p]} ∪ K) by (by apply elem_of_union_r). rewrite <- (H2 q Hq'), (H1 q Hq'); [by apply Ha|]. intros ->. done.
  Qed.
End thread.

(** ** All threads *)
Record sim (ps : list nat) (m0 : cmem) (x : pst) (ts : list (prog pst (list nat))) (qs : list (prog st (list object))) (Ks : list (gset nat)) : Prop := MkSim {
  sim_len : length ts = length Ks /\ length qs = length Ks;
  sim_at : forall i K P Q, Ks !! i = Some K -> ts !! i = Some P -> qs !! i = Some Q -> sm K (p_mem x) P Q reports;
  sim_disj : forall i j K K' q, Ks !! i = Some K -> Ks !! j = Some K' -> q ∈ K -> q ∈ K' -> i = j;
  sim_chan : chan (p_st x) = vals (p_mem x) (p_chan x);
  sim_free : NoDup (p_chan x).*1 /\ forall i K q, Ks !! i = Some K -> q ∈ K -> q ∉ (p_chan x).*1;
  sim_in : (forall i K q, Ks !! i = Some K -> q ∈ K -> q ∈ ps) /\ (forall q, q ∈ (p_chan x).*1 -> q ∈ ps);
  sim_keep : same_content m0 (p_mem x) /\ forall q, q ∉ ps -> p_mem x q = m0 q
}.

Lemma vals_agree m m' pc : (forall q, q ∈ pc.*1 -> m q = m' q) -> vals m pc = vals m' pc.
Proof. intros H. apply list_fmap_ext. intros i [q l] Hi. cbn. rewrite H; [done|]. apply elem_of_list_fmap. exists (q, l). split; [done|by eapply elem_of_list_lookup_2]. Qed.

Lemma same_content_trans a b c : same_content a b -> same_content b c -> same_content a c.
Proof. intros H1 H2 q. destruct (H1 q), (H2 q). split; congruence. Qed.

Lemma sim_step ps m0 x ts qs Ks x' ts' : sim ps m0 x ts qs Ks -> mstep (x, ts) (x', ts') ->
  exists qs' Ks', rtc mstep (p_st x, qs) (p_st x', qs') /\ sim ps m0 x' ts' qs' Ks'.
Proof.
  intros [[L1 L2] Hat Hd Hch [Hf1 Hf2] [Hi1 Hi2] [Hk1 Hk2]] Hs. inversion Hs as [x0 ts0 i f x1 p' Hi Hf]; subst. clear Hs.
  pose proof (lookup_lt_Some _ _ _ Hi) as Hlt.
  destruct (lookup_lt_is_Some_2 Ks i ltac:(lia)) as [K HK]. destruct (lookup_lt_is_Some_2 qs i ltac:(lia)) as [Q HQ].
  pose proof (Hat i K _ Q HK Hi HQ) as Hsm. destruct x as [s m pc]. cbn [p_st p_mem p_chan] in *. cbn [sm] in Hsm.
  destruct Hsm as [(g & -> & H)|[H|(g & -> & H)]].
  - specialize (H s m pc (agree_refl _ _)). rewrite Hf in H. destruct (g s) as [[s' q']|] eqn:Eg; [|done]. destruct H as (-> & Hc & H).
    exists (<[i := q']> qs), Ks. split.
    { apply rtc_once. by econstructor. }
    split; cbn [p_st p_mem p_chan]; try done.
    + by rewrite !insert_length.
    + intros j K' P' Q' HK' HP HQ'. destruct (decide (j = i)) as [->|Hne].
      * rewrite list_lookup_insert in HP by done. rewrite list_lookup_insert in HQ' by lia. congruence.
      * rewrite list_lookup_insert_ne in HP by done. rewrite list_lookup_insert_ne in HQ' by done. by apply (Hat j).
    + by rewrite Hc.
  - specialize (H s m pc (agree_refl _ _)). rewrite Hf in H. destruct H as (m' & -> & Hout & Hcon & H).
    exists qs, Ks. split; [done|]. split; cbn [p_st p_mem p_chan]; try done.
    + by rewrite !insert_length.
    + intros j K' P' Q' HK' HP HQ'. destruct (decide (j = i)) as [->|Hne].
      * rewrite list_lookup_insert in HP by done. congruence.
      * rewrite list_lookup_insert_ne in HP by done. pose proof (Hat j K' P' Q' HK' HP HQ') as Hsm.
        assert (Ha : agree K' m m') by (intros q Hq; symmetry; apply Hout; intros Hq'; by destruct (Hne (Hd _ _ _ _ _ HK' HK Hq Hq'))).
        eapply sm_agree; [|exact Ha|exact Hsm]. intros a b. by apply reports_agree.
    + rewrite Hch. apply vals_agree. intros q Hq. symmetry. apply Hout. intros Hq'. by apply (Hf2 i K q).
    + split; [by eapply same_content_trans|]. intros q Hq. rewrite Hout; [by apply Hk2|]. intros Hq'. apply Hq. by eapply Hi1.
  - specialize (H s m pc (agree_refl _ _) Hch). rewrite Hf in H. destruct (g s) as [[s' q']|] eqn:Eg; [|done].
    destruct pc as [|[p level] pc].
    + destruct H as (-> & Hc & H). exists (<[i := q']> qs), Ks. split; [apply rtc_once; by econstructor|].
      split; cbn [p_st p_mem p_chan]; try done.
      * by rewrite !insert_length.
      * intros j K' P' Q' HK' HP HQ'. destruct (decide (j = i)) as [->|Hne].
        -- rewrite list_lookup_insert in HP by done. rewrite list_lookup_insert in HQ' by lia. congruence.
        -- rewrite list_lookup_insert_ne in HP by done. rewrite list_lookup_insert_ne in HQ' by done. by apply (Hat j).
    + cbn [fst] in H. destruct H as (-> & Hc & H). cbn in Hf1, Hf2, Hi2. apply NoDup_cons in Hf1 as [Hp Hf1].
      assert (HpK : forall j K', Ks !! j = Some K' -> p ∉ K') by (intros j K' HK' Hin; apply (Hf2 j K' p HK' Hin); by left).
      exists (<[i := q']> qs), (<[i := {[p]} ∪ K]> Ks). split; [apply rtc_once; by econstructor|].
      split; cbn [p_st p_mem p_chan]; try done.
      * by rewrite !insert_length.
      * intros j K' P' Q' HK' HP HQ'. destruct (decide (j = i)) as [->|Hne].
        -- rewrite list_lookup_insert in HP by done. rewrite list_lookup_insert in HQ' by lia. rewrite list_lookup_insert in HK' by lia. injection HK' as <-. injection HP as <-. injection HQ' as <-.
           by apply H, (HpK i).
        -- rewrite list_lookup_insert_ne in HP by done. rewrite list_lookup_insert_ne in HQ' by done. rewrite list_lookup_insert_ne in HK' by done. by apply (Hat j).
      * intros j l K1 K2 q H1 H2 Hq1 Hq2. destruct (decide (j = i)) as [->|Hj], (decide (l = i)) as [->|Hl]; try done.
        -- rewrite list_lookup_insert in H1 by lia. rewrite list_lookup_insert_ne in H2 by done. injection H1 as <-.
           apply elem_of_union in Hq1 as [->%elem_of_singleton|Hq1]; [by destruct (HpK l K2)|]. by apply (Hd i l K K2 q).
        -- rewrite list_lookup_insert in H2 by lia. rewrite list_lookup_insert_ne in H1 by done. injection H2 as <-.
           apply elem_of_union in Hq2 as [->%elem_of_singleton|Hq2]; [by destruct (HpK j K1)|]. by apply (Hd j i K1 K q).
        -- rewrite list_lookup_insert_ne in H1 by done. rewrite list_lookup_insert_ne in H2 by done. by apply (Hd j l K1 K2 q).
      * split; [done|]. intros j K' q HK' Hq. destruct (decide (j = i)) as [->|Hj].
        -- rewrite list_lookup_insert in HK' by lia. injection HK' as <-. apply elem_of_union in Hq as [->%elem_of_singleton|Hq]; [done|].
           intros Hin. apply (Hf2 i K q HK Hq). by right.
        -- rewrite list_lookup_insert_ne in HK' by done. intros Hin. apply (Hf2 j K' q HK' Hq). by right.
      * split; [|intros q Hq; apply Hi2; by right]. intros j K' q HK' Hq. destruct (decide (j = i)) as [->|Hj].
        -- rewrite list_lookup_insert in HK' by lia. injection HK' as <-. apply elem_of_union in Hq as [->%elem_of_singleton|Hq]; [|by eapply Hi1].
           apply Hi2. by left.
        -- rewrite list_lookup_insert_ne in HK' by done. by eapply Hi1.
Qed.
Lemma sim_run ps m0 x ts qs Ks x' ts' : rtc mstep (x, ts) (x', ts') -> sim ps m0 x ts qs Ks ->
  exists qs' Ks', rtc mstep (p_st x, qs) (p_st x', qs') /\ sim ps m0 x' ts' qs' Ks'.
Proof.
  intros Hr. remember (x, ts) as a eqn:Ea. remember (x', ts') as b eqn:Eb. revert x ts qs Ks Ea. induction Hr as [a|a [x1 ts1] b Hs Hr IH]; intros x ts qs Ks -> Hsim.
  - injection Eb as -> ->. by exists qs, Ks.
  - destruct (sim_step _ _ _ _ _ _ _ _ Hsim Hs) as (qs1 & Ks1 & H1 & Hsim1). destruct (IH Eb x1 ts1 qs1 Ks1 eq_refl Hsim1) as (qs2 & Ks2 & H2 & Hsim2).
    exists qs2, Ks2. split; [|done]. by etrans.
Qed.

(** At the end. *)
Definition in_values (m : cmem) (r : out (list nat)) : out (list object) :=
  match r with Val l => Val (m <$> l) | Err e => Err e | Pan z => Pan z end.
Lemma sim_end ps m0 x rs qs Ks : sim ps m0 x (Done <$> rs) qs Ks -> qs = Done <$> (in_values (p_mem x) <$> rs).
Proof.
  intros [[L1 L2] Hat _ _ _ _ _]. rewrite fmap_length in L1. apply list_eq. intros i. rewrite !list_lookup_fmap.
  destruct (rs !! i) as [r|] eqn:Er; cbn.
  - pose proof (lookup_lt_Some _ _ _ Er) as Hlt. destruct (lookup_lt_is_Some_2 Ks i ltac:(lia)) as [K HK]. destruct (lookup_lt_is_Some_2 qs i ltac:(lia)) as [Q HQ].
    rewrite HQ. f_equal. assert (Ht : (Done <$> rs : list (prog pst (list nat))) !! i = Some (Done r)) by (by rewrite list_lookup_fmap, Er).
    pose proof (Hat i K _ Q HK Ht HQ) as H. destruct r; cbn in H; [|done..]. destruct H as (b & -> & -> & _). done.
  - apply lookup_ge_None in Er. apply lookup_ge_None. lia.
Qed.
