(** The rely/guarantee proof of HnswProofs instantiated twice: one thread
    running alone, and any number of threads under any schedule. *)
From Verif Require Import GoBase FloatModel HeapModel ProgModel StateModel WalModel HnswModel
  ProofBase CodecProofs FloatProofs HeapProofs WpProofs HnswProofs.
Open Scope nat_scope.

(** No vertex mutex is held. *)
Definition unlocked (s : st) : Prop := forall n v, nodes s !! n = Some v -> v_lock v = None.

Lemma unlocked_free s : unlocked s <-> forall t, free t s.
Proof.
  split.
  - intros H t n v Hn. by rewrite (H n v Hn).
  - intros H n v Hn. destruct (v_lock v) as [t|] eqn:E; [|done]. by destruct (H t n v Hn).
Qed.

(** ** One thread *)
Section seqc.
  Context (P : hparams) (conc : bool) (okv : fvec -> Prop) (U : gset N) (t : nat).
  Notation Inv := (Inv P conc okv U).
  Context (Hdist : forall v1 v2, okv v1 -> okv v2 -> exists d, dist P v1 v2 = Val d).
  Context (Hdeg : hp_m P + slack conc <= mMax0 P).

  Definition seqE (_ : gset N) (s s1 : st) : Prop := s1 = s.
  Definition seqGU (x : gset N) (s : st) (x' : gset N) (s1 : st) : Prop := x' = x /\ hguar P conc okv U t x s s1.
  Definition seqB (_ : gset N) (s : st) : Prop := hblk t s.

  (** What all steps of a run together guarantee. *)
  Definition seqT (o : gset N) (s s1 : st) : Prop :=
    ext s s1 /\ frame s s1 /\ (forall t', t' <> t -> free t' s -> free t' s1) /\
    (forall id, nodes s !! id = None -> is_Some (nodes s1 !! id) -> id ∈ o).

  Lemma seqT_refl o s : seqT o s s.
  Proof.
    split_and!; [apply ext_refl|apply frame_refl|done|]. intros id E [v Hv]. congruence.
  Qed.
  Lemma seqT_trans o s1 s2 s3 : seqT o s1 s2 -> seqT o s2 s3 -> seqT o s1 s3.
  Proof.
    intros (X1 & F1 & L1 & O1) (X2 & F2 & L2 & O2).
    split_and!; [by eapply ext_trans|by eapply frame_trans|auto|].
    intros id H1 H3. destruct (nodes s2 !! id) as [v|] eqn:E2; [by apply O1; eauto|by apply O2].
  Qed.
  Lemma seqGU_T x s x' s1 : seqGU x s x' s1 -> seqT x s s1.
  Proof.
    intros [-> [HI HX HO HL HF]]. split_and!; try done.
    intros t' Hne. by eapply lockrel_free, HL.
  Qed.

  Lemma seq_refl (x : gset N) s : seqE x s s. Proof. done. Qed.
  Lemma seq_run {A} (p : prog st A) (Q : gset N -> out A -> st -> Prop) o s :
    unlocked s -> wp seqE seqGU seqB p Q o s ->
    exists s' r, exec p s = Some (s', r) /\ seqT o s s' /\ exists o', Q o' r s'.
  Proof.
    intros Hun Hw.
    (* the ghost state never changes, so strengthen the postcondition by it *)
    assert (wp seqE (fun x s x' s1 => x = o /\ seqGU x s x' s1) seqB p Q o s) as Hw'.
    { clear Hun. assert (exists o1, o1 = o) as [o1 Eo] by by eexists. revert Hw.
      generalize s as s0. induction p as [r|f IH] using prog_ind'; intros s0 Hw; [exact Hw|].
      intros s1 He. specialize (Hw s1 He). destruct (f s1) as [[s2 p']|] eqn:Ef; [|done].
      destruct Hw as (x' & Hg & Hw). pose proof Hg as [-> _]. exists o. split; [done|]. by eapply IH. }
    assert (forall x s x' s1, x = o /\ seqGU x s x' s1 -> seqT o s s1) as HgT.
    { by intros x s0 x' s1 [-> ?%seqGU_T]. }
    pose proof (wp_exec_rel seqE _ seqB seq_refl (seqT o) p Q o s (seqT_refl o) (seqT_trans o) HgT Hw') as Hx.
    destruct (exec p s) as [[s' r]|].
    - destruct Hx as [HT HQ]. by exists s', r.
    - exfalso. destruct Hx as (x' & s' & (_ & _ & HL & _) & Hfr & n & v & t' & Hn & Hl & Hne).
      apply (HL t' Hne (proj1 (unlocked_free s) Hun t') n v Hn Hl).
  Qed.

  Lemma seq_trans (x : gset N) s1 s2 s3 : seqE x s1 s2 -> seqE x s2 s3 -> seqE x s1 s3.
  Proof. unfold seqE. congruence. Qed.
  Lemma seq_E (x : gset N) s s1 : seqE x s s1 -> hrely P conc okv U t x s s1.
  Proof. intros ->. apply hrely_refl. Qed.
  Lemma seq_GU (x : gset N) s s1 : Inv s -> hguar P conc okv U t x s s1 -> seqGU x s x s1.
  Proof. by split. Qed.
  Lemma seq_B (x : gset N) s : Inv s -> hblk t s -> seqB x s.
  Proof. done. Qed.

  Lemma seqc_insert fuel level vec id s :
    1 <= hp_efc P -> Inv s -> unlocked s -> okv vec -> id ∈ U -> nodes s !! id = None -> size U <= fuel ->
    exists s', exec (hnsw_insert P t fuel level vec id) s = Some (s', Val tt) /\
      Inv s' /\ unlocked s' /\ ext s s' /\ frame s s' /\ inserted id vec level s' /\
      (forall k, nodes s !! k = None -> is_Some (nodes s' !! k) -> k = id).
  Proof.
    intros Hefc HI Hun Hv HU Hn Hf.
    pose proof (wp_hnsw_insert P conc okv U (fun _ => t) (fun x => x) seqE seqGU seqB
      seq_refl seq_trans seq_E seq_GU seq_B Hdist Hdeg fuel level vec id {[id]} s s
      Hefc HI (ext_refl s) (proj1 (unlocked_free s) Hun t) Hv ltac:(set_solver) HU Hn Hf) as Hw.
    destruct (seq_run _ _ _ _ Hun Hw) as (s' & r & Hx & (HX & HF & HL & HO) & o' & _ & HI' & _ & [] & -> & Hfr & Hins).
    exists s'. split_and!; try done.
    - apply unlocked_free. intros t'. destruct (decide (t' = t)) as [->|Hne]; [done|]. apply HL; [done|]. by apply unlocked_free.
    - intros k Hk Hs. specialize (HO k Hk Hs). set_solver.
  Qed.

  (** A program that only reads. *)
  Lemma seq_ro {A} (p : prog st A) (Pst : A -> st -> Prop) s :
    unlocked s -> wp seqE seqGU seqB p (ro seqE ∅ s Pst) ∅ s ->
    exists a, exec p s = Some (s, Val a) /\ Pst a s.
  Proof.
    intros Hun Hw. destruct (seq_run _ _ _ _ Hun Hw) as (s' & r & Hx & _ & o' & _ & Hs & a & -> & Ha).
    unfold seqE in Hs. subst s'. by exists a.
  Qed.

  Lemma seqc_search fuel q k s :
    1 <= hp_ef P -> Inv s -> unlocked s -> okv q -> nodes s <> ∅ -> size U <= fuel -> (0 <= k)%Z ->
    exists near, exec (hnsw_search P t fuel q k) s =
        Some (s, Val (take (Z.to_nat k) (filter (live (deleted s)) (drain (length near) (new_min_heap near))))) /\
      near <> [] /\ length near <= hp_ef P /\ NoDup (eids near) /\ Forall (evalid P q s 0) near.
  Proof.
    intros Hef HI Hun Hq Hne Hf Hk.
    pose proof (wp_hnsw_search P conc okv U (fun _ => t) (fun x => x) seqE seqGU seqB
      seq_refl seq_trans seq_E seq_GU seq_B Hdist Hdeg fuel q k ∅ s s
      Hef HI eq_refl (proj1 (unlocked_free s) Hun t) Hq Hne Hf Hk) as Hw.
    destruct (seq_ro _ _ _ Hun Hw) as (res & Hx & near & dels & H1 & H2 & H3 & H4 & (s4 & H5 & H6 & ->) & ->).
    unfold seqE in H5. subst s4. by exists near.
  Qed.

  Lemma seqc_search_layer fuel q eps ef l s :
    Inv s -> unlocked s -> okv q -> 1 <= ef ->
    eps <> [] -> length eps <= ef -> NoDup (eids eps) -> Forall (evalid P q s l) eps -> size U <= fuel ->
    exists near, exec (search_layer P t fuel q eps ef l) s = Some (s, Val near) /\
      near <> [] /\ length near <= ef /\ NoDup (eids near) /\ Forall (evalid P q s l) near /\
      (nonan P okv -> forall e, e ∈ eps -> exists e', e' ∈ near /\ fltb (e_dist e) (e_dist e') = false).
  Proof.
    intros HI Hun Hq Hef Hne Hlen Hnd Hev Hf.
    pose proof (wp_search_layer P conc okv U (fun _ => t) (fun x => x) seqE seqGU seqB
      seq_refl seq_trans seq_E seq_GU seq_B Hdist Hdeg fuel q eps ef l ∅ s s
      HI (proj1 (unlocked_free s) Hun t) Hq Hef eq_refl Hne Hlen Hnd Hev Hf) as Hw.
    destruct (seq_ro _ _ _ Hun Hw) as (near & Hx & H1 & H2 & H3 & H4 & _ & H5). by exists near.
  Qed.
End seqc.

(** The bounds of a graph no inserts overlapped on. *)
Section seq.
  Context (P : hparams) (okv : fvec -> Prop) (U : gset N) (t : nat).
  Notation Inv := (Inv P false okv U).
  Context (Hdist : forall v1 v2, okv v1 -> okv v2 -> exists d, dist P v1 v2 = Val d).
  Context (Hdeg : hp_m P <= mMax0 P).
  Lemma seq_deg : hp_m P + slack false <= mMax0 P.
  Proof. unfold slack. lia. Qed.
  Definition seq_insert := seqc_insert P false okv U t Hdist seq_deg.
  Definition seq_search := seqc_search P false okv U t Hdist seq_deg.
  Definition seq_search_layer := seqc_search_layer P false okv U t Hdist seq_deg.
End seq.

Lemma all_done_or_step {S A} (ts : list (prog S A)) :
  (exists rs, ts = Done <$> rs) \/ exists i f, ts !! i = Some (Step f).
Proof.
  induction ts as [|p ts [[rs ->]|(i & f & Hi)]]; [left; by exists []| |right; by exists (Datatypes.S i), f].
  destruct p as [r|f]; [left; by exists (r :: rs)|right; by exists 0, f].
Qed.

(** ** Any number of threads *)
Section par.
  Context (P : hparams) (okv : fvec -> Prop) (U : gset N).
  Notation Inv := (Inv P true okv U).
  Context (Hdist : forall v1 v2, okv v1 -> okv v2 -> exists d, dist P v1 v2 = Val d).
  Context (Hdeg : hp_m P < mMax0 P).
  (** the ids that may be deleted meanwhile *)
  Context (D : gset N).

  (** Bookkeeping of a thread: its number and the ids it inserts. *)
  Definition pl : Type := nat * gset N.
  (** Tombstones of [D] may be added, none taken away. *)
  Definition delrel (s s1 : st) : Prop := deleted s ⊆ deleted s1 /\ deleted s1 ⊆ deleted s ∪ D.
  Lemma delrel_same s s1 : deleted s1 = deleted s -> delrel s s1.
  Proof using. clear Hdist Hdeg. unfold delrel. set_solver. Qed.
  Lemma delrel_trans s1 s2 s3 : delrel s1 s2 -> delrel s2 s3 -> delrel s1 s3.
  Proof using. clear Hdist Hdeg. unfold delrel. set_solver. Qed.
  Definition parE (x : pl) (s s1 : st) : Prop := hrely P true okv U (fst x) (snd x) s s1 /\ delrel s s1.
  Record pguar (t : nat) (own : gset N) (s s1 : st) : Prop := MkPGuar {
    pg_inv : Inv s1;
    pg_ext : ext s s1;
    pg_own : forall id, nodes s !! id = None -> is_Some (nodes s1 !! id) -> id ∈ own;
    pg_lock : forall t', t' <> t -> lockrel P t' s s1;
    pg_del : delrel s s1
  }.
  Definition parGU (x : pl) (s : st) (x' : pl) (s1 : st) : Prop :=
    x' = x /\ Inv s /\ pguar (fst x) (snd x) s s1.
  Definition parB (x : pl) (s : st) : Prop := hblk (fst x) s.

  (** [base]: the ids present at the start *)
  Definition parW (base : gset N) (xs : list pl) (s : st) : Prop :=
    Inv s /\
    (forall i x, xs !! i = Some x -> fst x = i) /\
    (forall i j x y, i <> j -> xs !! i = Some x -> xs !! j = Some y -> snd x ## snd y) /\
    (forall n v t, nodes s !! n = Some v -> v_lock v = Some t -> t < length xs) /\
    (forall id, is_Some (nodes s !! id) -> id ∈ base \/ exists i x, xs !! i = Some x /\ id ∈ snd x).

  Lemma parW_step base xs s i x x' s' :
    parW base xs s -> xs !! i = Some x -> parGU x s x' s' ->
    parW base (<[i := x']> xs) s' /\ forall j y, j <> i -> xs !! j = Some y -> parE y s s'.
  Proof.
    intros (HI & Hid & Hdis & Hlk & Hdom) Hx (-> & _ & [GI GX GO GL GF]).
    rewrite list_insert_id by done. split.
    - split_and!; try done.
      + intros n v t Hn Hl. destruct (decide (t = fst x)) as [->|Hne].
        * rewrite (Hid _ _ Hx). by eapply lookup_lt_Some.
        * destruct (GL t Hne) as [_ HB]. destruct (HB n v Hn Hl) as (v0 & Hn0 & Hl0). by eapply Hlk.
      + intros id Hs. destruct (nodes s !! id) as [v|] eqn:E; [apply Hdom; by eexists|].
        right. exists i, x. split; [done|]. by apply GO.
    - intros j y Hne Hy. split; [|done]. split; try done.
      + intros id Ho Hn. destruct (nodes s' !! id) as [v|] eqn:E; [|done]. exfalso.
        assert (id ∈ snd x) as Hox by (apply GO; [done|by eexists]).
        pose proof (Hdis i j x y ltac:(done) Hx Hy). set_solver.
      + apply GL. rewrite (Hid _ _ Hx), (Hid _ _ Hy). done.
  Qed.

  Lemma par_refl x s : parE x s s. Proof. split; [apply hrely_refl|by apply delrel_same]. Qed.
  Lemma par_trans x s1 s2 s3 : parE x s1 s2 -> parE x s2 s3 -> parE x s1 s3.
  Proof. intros [H1 D1] [H2 D2]. split; [by eapply hrely_trans|by eapply delrel_trans]. Qed.
  Lemma par_GU (x : pl) s s1 : Inv s -> hguar P true okv U (fst x) (snd x) s s1 -> parGU x s x s1.
  Proof. intros HI [GI GX GO GL GF]. split; [done|]. split; [done|]. split; try done. apply delrel_same, GF. Qed.

  Lemma par_E (x : pl) s s1 : parE x s s1 -> hrely P true okv U (fst x) (snd x) s s1.
  Proof. by intros [? _]. Qed.
  Lemma par_B (x : pl) s : Inv s -> hblk (fst x) s -> parB x s.
  Proof. intros _. exact id. Qed.
  Lemma par_deg : hp_m P + slack true <= mMax0 P.
  Proof. unfold slack. lia. Qed.

  Notation pwp := (wp parE parGU parB).

  Lemma par_insert fuel level vec id i own s :
    1 <= hp_efc P -> Inv s -> free i s -> okv vec -> id ∈ own -> id ∈ U -> nodes s !! id = None -> size U <= fuel ->
    pwp (hnsw_insert P i fuel level vec id)
      (wr P true okv U (i, own) s (fun _ s' => free i s' /\ inserted id vec level s')) (i, own) s.
  Proof.
    intros Hefc HI Hf Hv Ho HU Hn Hfuel.
    exact (wp_hnsw_insert P true okv U fst snd parE parGU parB par_refl par_trans par_E par_GU par_B Hdist par_deg
      fuel level vec id (i, own) s s Hefc HI (ext_refl s) Hf Hv Ho HU Hn Hfuel).
  Qed.

  (** Every reachable configuration of threads that satisfy the logic: the
      invariant holds, finished threads satisfy their postconditions, and if
      some thread is not finished then some thread can make a step. *)
  Lemma par_reach {A} base (Q : nat -> pl -> out A -> st -> Prop) xs (ts ts' : list (prog st A)) s s' :
    all_wp parE parGU parB (parW base) Q xs ts s ->
    rtc mstep (s, ts) (s', ts') ->
    (forall i x r s, Q i x r s -> free (fst x) s) ->
    exists xs', all_wp parE parGU parB (parW base) Q xs' ts' s' /\
      ((exists rs, ts' = Done <$> rs) \/ exists m, mstep (s', ts') m).
  Proof.
    intros Ha Hr HQ.
    destruct (all_wp_rtc parE parGU parB par_refl par_trans (parW base) (parW_step base) Q xs _ _ Hr Ha) as [xs' Ha'].
    cbn [fst snd] in Ha'. exists xs'. split; [done|].
    destruct Ha' as (Hlen & (HI & Hid & Hdis & Hlk & Hdom) & Hall).
    (* what each thread is doing *)
    assert (forall i p, ts' !! i = Some p -> (exists r, p = Done r) \/ (exists m, mstep (s', ts') m) \/
      (exists x, xs' !! i = Some x /\ parB x s')) as Hcase.
    { intros i p Hp. destruct p as [r|f]; [left; by eexists|right].
      destruct (lookup_lt_is_Some_2 xs' i) as [x Hx]; [rewrite Hlen; by eapply lookup_lt_Some|].
      pose proof (Hall i x _ Hx Hp s' (par_refl x s')) as Hw.
      destruct (f s') as [[s2 p']|] eqn:Ef; [left; eexists; by econstructor|]. right. by exists x. }
    destruct (all_done_or_step ts') as [Hd|(i & f & Hp)]; [by left|right].
    destruct (Hcase i _ Hp) as [[r Hd]|[Hs|(x & Hx & Hfr & n & v & t' & Hn & Hl & Hne)]]; [done|done|].
    (* thread t' holds a mutex: it is neither finished nor blocked *)
    pose proof (Hlk n v t' Hn Hl) as Hlt.
    destruct (lookup_lt_is_Some_2 xs' t' Hlt) as [y Hy]. rewrite Hlen in Hlt.
    destruct (lookup_lt_is_Some_2 ts' t' Hlt) as [p' Hp'].
    destruct (Hcase t' p' Hp') as [[r ->]|[Hs|(z & Hz & Hfz & _)]]; [|done|].
    - exfalso. pose proof (Hall t' y _ Hy Hp' s' (par_refl y s')) as Hq. apply HQ in Hq.
      rewrite (Hid _ _ Hy) in Hq. by apply (Hq n v).
    - exfalso. rewrite (Hid _ _ Hz) in Hfz. by apply (Hfz n v).
  Qed.
End par.

(** ** No schedule runs for ever *)
Definition pstep {S A} (p p' : prog S A) : Prop := exists f s s', p = Step f /\ f s = Some (s', p').
Definition lstep {S A} (ts ts' : list (prog S A)) : Prop :=
  exists i p p', ts !! i = Some p /\ pstep p p' /\ ts' = <[i := p']> ts.

Lemma pstep_acc {S A} (p : prog S A) : Acc (flip pstep) p.
Proof.
  induction p as [r|f IH] using prog_ind'; constructor; intros p' (g & s & s' & Eq & Eg); [done|].
  injection Eq as <-. by eapply IH.
Qed.
Lemma lstep_acc {S A} (ts : list (prog S A)) : Acc (flip lstep) ts.
Proof.
  induction ts as [|p ts IH].
  { constructor. intros ts' (i & p & p' & Hi & _). done. }
  revert p. induction IH as [ts _ IHts]. intros p.
  induction (pstep_acc p) as [p Hp IHp].
  constructor. intros ts' (i & q & q' & Hi & Hs & ->). destruct i as [|i].
  - cbn in Hi. injection Hi as <-. cbn. apply IHp. done.
  - cbn in Hi. cbn. apply IHts. by exists i, q, q'.
Qed.
Lemma mstep_acc {S A} (m : machine S A) : Acc (flip mstep) m.
Proof.
  destruct m as [s ts]. revert s. induction (lstep_acc ts) as [ts _ IH]. intros s.
  constructor. intros [s' ts'] Hm. inversion Hm as [s0 ts0 i f s1 p' Hi Hf]; subst. apply IH.
  exists i, (Step f), p'. split_and!; try done. by exists f, s, s'.
Qed.
