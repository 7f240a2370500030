(** The index log under every interleaving of the workers: at every moment the
    records written so far can be replayed, and rebuild the vertices (with
    their layers), the entry point and the deleted ids that are in memory.
    Only the neighbour lists may differ.  Covers calls that panic or fail. *)
From stdpp Require Import relations.
From Verif Require Import GoBase FloatModel HeapModel ProgModel StateModel WalModel HnswModel StoreModel CollModel CallModel
  ProofBase CodecProofs CodecSpec LogProofs FloatProofs HeapProofs WpProofs StepProofs SeqLog SimProofs StoreProofs CallProofs WalProofs RestoreProofs.
Open Scope nat_scope.
Local Arguments id_key _ : simpl never.
Local Arguments le_put _ _ : simpl never.

(** ** What a step can touch *)
Record pv := PV {
  p_n : gmap N (list (list N) * fvec); p_ep : N; p_maxl : nat; p_del : gset N; p_log : list bytes;
  p_cnt : N; p_vecs : gmap bytes bytes; p_chan : list (object * nat)
}.
Definition flat (v : vertex) : list (list N) * fvec := (v_conns v, v_vec v).
Definition pview (s : st) : pv :=
  PV (flat <$> nodes s) (ep s) (maxl s) (deleted s) (log_view s) (cnt s) (vecs s) (chan s).

(** What a thread is doing: nothing, or it owns a fetched id; it has put the
    vector; it has logged the vertex; the vertex is in the index. *)
Inductive phase := Idle | Own (id : N) | Put (id : N) (vec : fvec) | Logd (id : N) (vec : fvec) (level : nat) | Ins (id : N) (level : nat).
Record pg := PG { pg_ph : phase; pg_bud : nat }.

Definition owned (p : phase) : option N :=
  match p with Own id | Put id _ | Logd id _ _ => Some id | _ => None end.
Definition settled (p : phase) : Prop :=
  match p with Put _ _ | Logd _ _ _ => False | _ => True end.

Definition rec_ok (u : pv) (o : wop) : Prop :=
  match o with
  | WSetConns n l _ | WAddConn n l _ => wop_ok o /\ exists cs vec, p_n u !! n = Some (cs, vec) /\ l < length cs
  | _ => False
  end.

Inductive pstep : pg -> pv -> pg -> pv -> Prop :=
| PNop x u : pstep x u x u
| PFetch p b n e m d l c v h :
    settled p -> pstep (PG p (S b)) (PV n e m d l c v h) (PG (Own c) b) (PV n e m d l (c + 1) v h)
| PPop p b n e m d l c v o h :
    pstep (PG p b) (PV n e m d l c v (o :: h)) (PG p (S b)) (PV n e m d l c v h)
| PPut id vec bs b n e m d l c v h :
    ser_vec vec = Val bs -> vec_ok vec ->
    pstep (PG (Own id) b) (PV n e m d l c v h) (PG (Put id vec) b) (PV n e m d l c (<[id_key id := bs]> v) h)
| PLogv id vec level r b n e m d l c v h :
    id_ok id -> level_ok level -> enc_wop (WAddVertex id level) = Val r ->
    pstep (PG (Put id vec) b) (PV n e m d l c v h) (PG (Logd id vec level) b) (PV n e m d (l ++ [r]) c v h)
| PAdd id vec level b n e m d l c v h :
    pstep (PG (Logd id vec level) b) (PV n e m d l c v h) (PG (Ins id level) b)
      (PV (<[id := (init_conns level, vec)]> n) e m d l c v h)
| POnce id vec r1 r2 b n e m d l c v h :
    id_ok id -> enc_wop (WSetEntry id 0) = Val r1 -> enc_wop (WAddVertex id 0) = Val r2 -> n = ∅ ->
    pstep (PG (Put id vec) b) (PV n e m d l c v h) (PG (Ins id 0) b)
      (PV (<[id := (init_conns 0, vec)]> n) id 0 d (l ++ [r1; r2]) c v h)
| PRec x o r n e m d l c v h :
    rec_ok (PV n e m d l c v h) o -> enc_wop o = Val r ->
    pstep x (PV n e m d l c v h) x (PV n e m d (l ++ [r]) c v h)
| PMem x i cs cs' vec n e m d l c v h :
    n !! i = Some (cs, vec) -> length cs' = length cs -> Forall (Forall id_ok) cs' ->
    pstep x (PV n e m d l c v h) x (PV (<[i := (cs', vec)]> n) e m d l c v h)
| PEntry x id k r n e m d l c v h :
    id_ok id -> level_ok k -> enc_wop (WSetEntry id k) = Val r ->
    pstep x (PV n e m d l c v h) x (PV n id k d (l ++ [r]) c v h)
| PDel x id r n e m d l c v h :
    id_ok id -> enc_wop (WDelete id) = Val r ->
    pstep x (PV n e m d l c v h) x (PV n e m ({[id]} ∪ d) (l ++ [r]) c v h).

(** ** The invariant *)
(** What is given to the index: 32-bit patterns, levels that fit a record. *)
Definition fed_ok (ol : object * nat) : Prop := floats_ok (vec_or_nil (fst ol)) /\ level_ok (snd ol).
Definition pJ (u : pv) : Prop :=
  (forall n cs vec, p_n u !! n = Some (cs, vec) -> id_ok n /\ Forall (Forall id_ok) cs) /\ Forall fed_ok (p_chan u).
Definition has_put (ps : list phase) (id : N) : Prop := exists i vec, ps !! i = Some (Put id vec).
Definition has_log (ps : list phase) (id : N) : Prop := exists i vec level, ps !! i = Some (Logd id vec level).

Definition stored_vec (v : gmap bytes bytes) (id : N) (vec : fvec) : Prop :=
  exists b, v !! id_key id = Some b /\ ser_vec vec = Val b /\ vec_ok vec.

(** [b] is what the log rebuilds. *)
Record pW0 (ps : list phase) (u : pv) (os : list wop) (b : st) : Prop := MkPW {
  pw_ok : Forall wop_ok os;
  pw_enc : Forall2 (fun o r => enc_wop o = Val r) os (p_log u);
  pw_app : wops_apply os empty_st = Val b;
  pw_ep : ep b = p_ep u;
  pw_maxl : maxl b = p_maxl u;
  pw_del : deleted b = p_del u;
  pw_lev : forall id cs vec, p_n u !! id = Some (cs, vec) -> exists w, nodes b !! id = Some w /\ length (v_conns w) = length cs;
  pw_dom : forall id, is_Some (nodes b !! id) -> is_Some (p_n u !! id) \/ has_log ps id;
  pw_J : pJ u;
  pw_vec : forall id cs vec, p_n u !! id = Some (cs, vec) -> stored_vec (p_vecs u) id vec;
  pw_key : forall k, is_Some (p_vecs u !! k) -> exists id, k = id_key id /\ (id < p_cnt u)%N /\ (is_Some (nodes b !! id) \/ has_put ps id);
  pw_ids : forall id, is_Some (p_n u !! id) -> (id < p_cnt u)%N;
  pw_put : forall i id vec, ps !! i = Some (Put id vec) -> stored_vec (p_vecs u) id vec;
  pw_logd : forall i id vec level, ps !! i = Some (Logd id vec level) ->
    stored_vec (p_vecs u) id vec /\ exists w, nodes b !! id = Some w /\ length (v_conns w) = S level;
  pw_own : forall i p id, ps !! i = Some p -> owned p = Some id -> (id < p_cnt u)%N /\ p_n u !! id = None;
  pw_dist : forall i j p q id, ps !! i = Some p -> ps !! j = Some q -> owned p = Some id -> owned q = Some id -> i = j;
  pw_cnt : (p_cnt u < 2 ^ 64)%N
}.
Definition pW (xs : list pg) (u : pv) : Prop :=
  (exists os b, pW0 (pg_ph <$> xs) u os b) /\ (p_cnt u + N.of_nat (sum_list (pg_bud <$> xs) + length (p_chan u)) < 2 ^ 64)%N.

(** What other threads may rely on. *)
Definition grow (u u' : pv) : Prop :=
  forall n cs vec, p_n u !! n = Some (cs, vec) -> exists cs', p_n u' !! n = Some (cs', vec) /\ length cs' = length cs.
Definition room (x : pg) (u : pv) : Prop := (p_cnt u + N.of_nat (pg_bud x + length (p_chan u)) < 2 ^ 64)%N.
Definition pE (x : pg) (s s' : st) : Prop :=
  grow (pview s) (pview s') /\ (pJ (pview s) -> pJ (pview s')) /\ (room x (pview s) -> room x (pview s')).
Definition pGU (x : pg) (s : st) (x' : pg) (s' : st) : Prop := pstep x (pview s) x' (pview s').
Definition pB (x : pg) (s : st) : Prop := True.
Notation pwp := (wp pE pGU pB).

Lemma grow_refl u : grow u u. Proof. intros n cs vec H. eauto. Qed.
Lemma grow_trans a b c : grow a b -> grow b c -> grow a c.
Proof. intros H1 H2 n cs vec H. destruct (H1 _ _ _ H) as (cs1 & E1 & L1). destruct (H2 _ _ _ E1) as (cs2 & E2 & L2). exists cs2. split; [done|congruence]. Qed.
Lemma pE_refl x s : pE x s s. Proof. split; [apply grow_refl|done]. Qed.
Lemma pE_trans x a b c : pE x a b -> pE x b c -> pE x a c.
Proof. intros (A1 & A2 & A3) (B1 & B2 & B3). split; [by eapply grow_trans|auto]. Qed.

Lemma wops_apply_snoc os o s b b' : wops_apply os s = Val b -> wop_apply o b = Val b' -> wops_apply (os ++ [o]) s = Val b'.
Proof. intros H1 H2. rewrite wops_apply_app, H1. cbn. by rewrite H2. Qed.

Lemma stored_ins v id vec id' b : (id < 2 ^ 64)%N -> (id' < 2 ^ 64)%N -> id <> id' -> stored_vec v id vec -> stored_vec (<[id_key id' := b]> v) id vec.
Proof.
  intros H1 H2 Hne (b0 & Hb & H). exists b0. split; [|done]. rewrite lookup_insert_ne; [done|].
  intros E. apply id_key_inj in E; [|done..]. congruence.
Qed.

Lemma sum_cons (y : pg) xs : sum_list (pg_bud <$> y :: xs) = pg_bud y + sum_list (pg_bud <$> xs). Proof. done. Qed.
Lemma sum_insert_bud xs i x x' : xs !! i = Some x -> sum_list (pg_bud <$> <[i := x']> xs) + pg_bud x = sum_list (pg_bud <$> xs) + pg_bud x'.
Proof.
  revert i. induction xs as [|y xs IH]; intros [|i] E; [done..| |].
  - injection E as ->. change (<[0 := x']> (x :: xs)) with (x' :: xs). rewrite !sum_cons. lia.
  - change (<[S i := x']> (y :: xs)) with (y :: <[i := x']> xs). rewrite !sum_cons. specialize (IH i E). lia.
Qed.
Lemma sum_bud_ge xs i x : xs !! i = Some x -> pg_bud x <= sum_list (pg_bud <$> xs).
Proof. revert i. induction xs as [|y xs IH]; intros [|i] E; [done..| |]; rewrite sum_cons; [injection E as ->; lia|]. specialize (IH i E). lia. Qed.
Lemma sum_bud_two xs i j x y : i <> j -> xs !! i = Some x -> xs !! j = Some y -> pg_bud x + pg_bud y <= sum_list (pg_bud <$> xs).
Proof.
  revert i j. induction xs as [|z xs IH]; intros [|i] [|j] Hne Hi Hj; try done; rewrite sum_cons.
  - injection Hi as ->. pose proof (sum_bud_ge xs j y Hj). lia.
  - injection Hj as ->. pose proof (sum_bud_ge xs i x Hi). lia.
  - specialize (IH i j ltac:(congruence) Hi Hj). lia.
Qed.

Lemma lookup_ins_cases {A} (xs : list A) i x' j y :
  <[i := x']> xs !! j = Some y -> (j = i /\ y = x') \/ (j <> i /\ xs !! j = Some y).
Proof.
  intros H. destruct (decide (j = i)) as [->|Hne]; [left|right].
  - pose proof (lookup_lt_Some _ _ _ H) as Hl. rewrite insert_length in Hl. rewrite list_lookup_insert in H by done. by injection H as <-.
  - by rewrite list_lookup_insert_ne in H.
Qed.

(** Changing the phase of one thread. *)
Section upd.
  Context (ps : list phase) (i : nat) (p p' : phase) (Hi : ps !! i = Some p).

  Lemma ins_at : <[i := p']> ps !! i = Some p'.
  Proof using Hi. rewrite list_lookup_insert; [done|]. by eapply lookup_lt_Some. Qed.
  Lemma has_put_keep id : has_put ps id -> (forall vec, p <> Put id vec) -> has_put (<[i := p']> ps) id.
  Proof using Hi.
    intros (j & vec & Hj) Hx. destruct (decide (j = i)) as [->|Hne]; [rewrite Hi in Hj; injection Hj as ->; by destruct (Hx vec)|].
    exists j, vec. by rewrite list_lookup_insert_ne.
  Qed.
  Lemma has_log_keep id : has_log ps id -> (forall vec l, p <> Logd id vec l) -> has_log (<[i := p']> ps) id.
  Proof using Hi.
    intros (j & vec & l & Hj) Hx. destruct (decide (j = i)) as [->|Hne]; [rewrite Hi in Hj; injection Hj as ->; by destruct (Hx vec l)|].
    exists j, vec, l. by rewrite list_lookup_insert_ne.
  Qed.
  (** The thread keeps or drops the id it owned. *)
  Lemma dist_keep :
    (forall i j p q id, ps !! i = Some p -> ps !! j = Some q -> owned p = Some id -> owned q = Some id -> i = j) ->
    (forall id, owned p' = Some id -> owned p = Some id) ->
    (forall j k q r id, <[i := p']> ps !! j = Some q -> <[i := p']> ps !! k = Some r -> owned q = Some id -> owned r = Some id -> j = k).
  Proof using Hi.
    intros Hd Hp j k q r id Hj Hk Hq Hr. apply lookup_ins_cases in Hj as [[-> ->]|[Hnj Hj]]; apply lookup_ins_cases in Hk as [[-> ->]|[Hnk Hk]]; eauto.
  Qed.
End upd.

Lemma pW0_step xs u os b i x x' u' :
  pW0 (pg_ph <$> xs) u os b -> xs !! i = Some x -> room x u -> pstep x u x' u' ->
  exists os' b', pW0 (pg_ph <$> <[i := x']> xs) u' os' b'.
Proof.
  intros HW Hi Hroom Hs. rewrite list_fmap_insert.
  assert (Hp : (pg_ph <$> xs) !! i = Some (pg_ph x)) by (by rewrite list_lookup_fmap, Hi).
  remember (pg_ph <$> xs) as ps eqn:Eps. clear Eps xs Hi. unfold room in Hroom.
  destruct Hs as [x u|p bu n e m d l c v h Hset|p bu n e m d l c v o h|id vec bs bu n e m d l c v h Hser Hvok|id vec level r bu n e m d l c v h Hid Hlv Hr
    |id vec level bu n e m d l c v h|id vec r1 r2 bu n e m d l c v h Hid Hr1 Hr2 Hn|x o r n e m d l c v h Hrec Hr|x k cs cs' vec n e m d l c v h Hk Hlen HJ
    |x id k r n e m d l c v h Hid Hlv Hr|x id r n e m d l c v h Hid Hr]; cbn [pg_ph pg_bud p_cnt p_chan] in *.
  - (* nothing *)
    exists os, b. by rewrite list_insert_id.
  - (* fetch *)
    exists os, b. destruct HW as [W1 W2 W3 W4 W5 W6 W7 W8 W9 W10 W11 W12 W13 W14 W15 W16 W17]. cbn in *. split; cbn; try done.
    + intros id H. destruct (W8 id H) as [?|Hl]; [by left|right]. eapply has_log_keep; [done..|]. by intros ? ? ->.
    + intros k H. destruct (W11 k H) as (id & -> & Hlt & Hd). exists id. split_and!; [done|lia|]. destruct Hd as [?|Hput]; [by left|right].
      eapply has_put_keep; [done..|]. by intros ? ->.
    + intros id H. specialize (W12 id H). lia.
    + intros j id vec [[_ H]|[_ H]]%lookup_ins_cases; [done|eauto].
    + intros j id vec level [[_ H]|[_ H]]%lookup_ins_cases; [done|eauto].
    + intros j q id [[_ ->]|[_ H]]%lookup_ins_cases Hq.
      * injection Hq as <-. split; [lia|]. destruct (n !! c) as [y|] eqn:E; [|done]. assert (c < c)%N by (apply W12; by eexists). lia.
      * destruct (W15 _ _ _ H Hq). split; [lia|done].
    + intros j k q r id [[-> ->]|[Hj Hjl]]%lookup_ins_cases [[-> ->]|[Hk Hkl]]%lookup_ins_cases Hq Hr.
      * done.
      * injection Hq as <-. destruct (W15 _ _ _ Hkl Hr). lia.
      * injection Hr as <-. destruct (W15 _ _ _ Hjl Hq). lia.
      * by eapply W16.
    + lia.
  - (* receive from the channel *)
    exists os, b. rewrite list_insert_id by done. destruct HW as [W1 W2 W3 W4 W5 W6 W7 W8 [W9 W9c] W10 W11 W12 W13 W14 W15 W16 W17]. split; try done.
    split; [done|]. by apply Forall_cons in W9c as [_ ?].
  - (* put the vector *)
    exists os, b. destruct HW as [W1 W2 W3 W4 W5 W6 W7 W8 W9 W10 W11 W12 W13 W14 W15 W16 W17]. cbn in *.
    destruct (W15 _ _ id Hp eq_refl) as [Hlt Hnone].
    assert (Hoth : forall j q id', j <> i -> ps !! j = Some q -> owned q = Some id' -> id' <> id).
    { intros j q id' Hne Hj Hq ->. apply Hne. by eapply W16. }
    split; cbn; try done.
    + intros id' H. destruct (W8 id' H) as [?|Hl]; [by left|right]. eapply has_log_keep; done.
    + intros id' cs vec' H. apply stored_ins; [|lia| |by eapply W10].
      * assert (id' < c)%N by (apply W12; by eexists). lia.
      * intros ->. congruence.
    + intros k H. destruct (decide (k = id_key id)) as [->|Hne].
      * exists id. split_and!; [done..|]. right. exists i, vec. by eapply ins_at.
      * rewrite lookup_insert_ne in H by done. destruct (W11 k H) as (id' & -> & Hlt' & Hd). exists id'. split_and!; [done..|].
        destruct Hd as [?|Hput]; [by left|right]. eapply has_put_keep; done.
    + intros j id' vec' [[_ H]|[Hne H]]%lookup_ins_cases.
      * injection H as -> ->. exists bs. by rewrite lookup_insert.
      * apply stored_ins; [|lia| |by eapply W13]; [|by eapply (Hoth j)]. destruct (W15 _ _ id' H eq_refl). lia.
    + intros j id' vec' level [[_ H]|[Hne H]]%lookup_ins_cases; [done|]. destruct (W14 _ _ _ _ H) as [Hst Hw]. split; [|done].
      apply stored_ins; [|lia| |done]; [|by eapply (Hoth j)]. destruct (W15 _ _ id' H eq_refl). lia.
    + intros j q id' [[_ ->]|[_ H]]%lookup_ins_cases Hq; [|by eapply W15]. by injection Hq as <-.
    + eapply dist_keep; done.
  - (* log the vertex *)
    destruct HW as [W1 W2 W3 W4 W5 W6 W7 W8 W9 W10 W11 W12 W13 W14 W15 W16 W17]. cbn in *.
    destruct (W15 _ _ id Hp eq_refl) as [Hlt Hnone].
    exists (os ++ [WAddVertex id level]), (set_nodes (<[id := Vertex (replicate (S level) []) [] None]> (nodes b)) b).
    split; cbn; try done.
    + apply Forall_app. split; [done|by repeat constructor].
    + apply Forall2_app; [done|by repeat constructor].
    + by eapply wops_apply_snoc.
    + intros id' cs vec' H. rewrite lookup_insert_ne by congruence. eauto.
    + intros id' H. destruct (decide (id' = id)) as [->|Hne].
      * right. exists i, vec, level. by eapply ins_at.
      * rewrite lookup_insert_ne in H by done. destruct (W8 id' H) as [?|Hl]; [by left|right]. eapply has_log_keep; done.
    + intros k H. destruct (W11 k H) as (id' & -> & Hlt' & Hd). exists id'. split_and!; [done..|].
      destruct (decide (id' = id)) as [->|Hne]; [left; rewrite lookup_insert; by eexists|]. rewrite lookup_insert_ne by done.
      destruct Hd as [?|Hput]; [by left|right]. eapply has_put_keep; [done..|]. intros ? [= ->]. done.
    + intros j id' vec' [[_ H]|[Hne H]]%lookup_ins_cases; [done|eauto].
    + intros j id' vec' level' [[_ H]|[Hne H]]%lookup_ins_cases.
      * injection H as -> -> ->. split; [by eapply W13|]. rewrite lookup_insert. eexists. split; [done|]. cbn. by rewrite replicate_length.
      * destruct (W14 _ _ _ _ H) as (Hst & w & Hw & Hl). split; [done|]. exists w. split; [|done].
        rewrite lookup_insert_ne; [done|]. intros ->. apply Hne. by eapply W16.
    + intros j q id' [[_ ->]|[_ H]]%lookup_ins_cases Hq; [|by eapply W15]. by injection Hq as <-.
    + eapply dist_keep; done.
  - (* add the vertex to the index *)
    exists os, b. destruct HW as [W1 W2 W3 W4 W5 W6 W7 W8 W9 W10 W11 W12 W13 W14 W15 W16 W17]. cbn in *.
    destruct (W15 _ _ id Hp eq_refl) as [Hlt Hnone]. destruct (W14 _ _ _ _ Hp) as (Hst & w & Hw & Hwl).
    split; cbn; try done.
    + intros id' cs vec' H. destruct (decide (id' = id)) as [->|Hne].
      * rewrite lookup_insert in H. injection H as <- <-. exists w. split; [done|]. unfold init_conns. rewrite replicate_length. lia.
      * rewrite lookup_insert_ne in H by done. eauto.
    + intros id' H. destruct (decide (id' = id)) as [->|Hne]; [left; rewrite lookup_insert; by eexists|]. rewrite lookup_insert_ne by done.
      destruct (W8 id' H) as [?|Hl]; [by left|right]. eapply has_log_keep; [done..|]. intros ? ? [= ->]. done.
    + split; [|apply W9]. intros id' cs vec' H. cbn in H. destruct (decide (id' = id)) as [->|Hne]; [|rewrite lookup_insert_ne in H by done; by eapply W9].
      rewrite lookup_insert in H. injection H as <- <-. split; [unfold id_ok; lia|]. unfold init_conns. apply Forall_replicate. constructor.
    + intros id' cs vec' H. destruct (decide (id' = id)) as [->|Hne]; [|rewrite lookup_insert_ne in H by done; by eapply W10].
      rewrite lookup_insert in H. by injection H as <- <-.
    + intros k H. destruct (W11 k H) as (id' & -> & Hlt' & Hd). exists id'. split_and!; [done..|].
      destruct Hd as [?|Hput]; [by left|right]. eapply has_put_keep; done.
    + intros id' H. destruct (decide (id' = id)) as [->|Hne]; [done|rewrite lookup_insert_ne in H by done; by apply W12].
    + intros j id' vec' [[_ H]|[Hne H]]%lookup_ins_cases; [done|eauto].
    + intros j id' vec' level' [[_ H]|[Hne H]]%lookup_ins_cases; [done|eauto].
    + intros j q id' [[_ ->]|[Hne H]]%lookup_ins_cases Hq; [done|]. destruct (W15 _ _ _ H Hq) as [? ?]. split; [done|].
      rewrite lookup_insert_ne; [done|]. intros ->. apply Hne. by eapply W16.
    + eapply dist_keep; done.
  - (* the first vertex *)
    destruct HW as [W1 W2 W3 W4 W5 W6 W7 W8 W9 W10 W11 W12 W13 W14 W15 W16 W17]. cbn in *. subst n.
    destruct (W15 _ _ id Hp eq_refl) as [Hlt Hnone].
    exists (os ++ [WSetEntry id 0; WAddVertex id 0]), (set_nodes (<[id := Vertex (replicate 1 []) [] None]> (nodes b)) (set_entry id 0 b)).
    split; cbn; try done.
    + apply Forall_app. split; [done|repeat constructor; done].
    + apply Forall2_app; [done|by repeat constructor].
    + rewrite wops_apply_app, W3. done.
    + intros id' cs vec' H. destruct (decide (id' = id)) as [->|Hne].
      * rewrite lookup_insert in H. injection H as <- <-. rewrite lookup_insert. by eexists.
      * by rewrite lookup_insert_ne in H.
    + intros id' H. destruct (decide (id' = id)) as [->|Hne]; [left; rewrite lookup_insert; by eexists|]. rewrite lookup_insert_ne in H by done.
      rewrite lookup_insert_ne by done. destruct (W8 id' H) as [?|Hl]; [by left|right]. eapply has_log_keep; done.
    + split; [|apply W9]. intros id' cs vec' H. cbn in H. destruct (decide (id' = id)) as [->|Hne]; [|rewrite lookup_insert_ne in H by done; by eapply W9].
      rewrite lookup_insert in H. injection H as <- <-. split; [done|]. by repeat constructor.
    + intros id' cs vec' H. destruct (decide (id' = id)) as [->|Hne]; [|rewrite lookup_insert_ne in H by done; by eapply W10].
      rewrite lookup_insert in H. injection H as <- <-. by eapply W13.
    + intros k H. destruct (W11 k H) as (id' & -> & Hlt' & Hd). exists id'. split_and!; [done..|].
      destruct (decide (id' = id)) as [->|Hne]; [left; rewrite lookup_insert; by eexists|]. rewrite lookup_insert_ne by done.
      destruct Hd as [?|Hput]; [by left|right]. eapply has_put_keep; [done..|]. intros ? [= ->]. done.
    + intros id' H. destruct (decide (id' = id)) as [->|Hne]; [done|rewrite lookup_insert_ne in H by done; by apply W12].
    + intros j id' vec' [[_ H]|[Hne H]]%lookup_ins_cases; [done|eauto].
    + intros j id' vec' level' [[_ H]|[Hne H]]%lookup_ins_cases; [done|]. destruct (W14 _ _ _ _ H) as (Hst & w & Hw & Hl). split; [done|].
      exists w. split; [|done]. rewrite lookup_insert_ne; [done|]. intros ->. apply Hne. by eapply W16.
    + intros j q id' [[_ ->]|[Hne H]]%lookup_ins_cases Hq; [done|]. destruct (W15 _ _ _ H Hq) as [? ?]. split; [done|].
      rewrite lookup_insert_ne; [done|]. intros ->. apply Hne. by eapply W16.
    + eapply dist_keep; done.
  - (* a record about a vertex that is in the index *)
    rewrite list_insert_id by done.
    assert (exists b', wop_apply o b = Val b' /\ ep b' = ep b /\ maxl b' = maxl b /\ deleted b' = deleted b /\
      forall id, (length ∘ v_conns) <$> nodes b' !! id = (length ∘ v_conns) <$> nodes b !! id) as (b' & Hb' & E1 & E2 & E3 & E4).
    { destruct o as [id l0|id l0|id l0 ns|id l0 nn|id]; try done; destruct Hrec as (_ & cs & vec & Hn & Hlt);
      destruct (pw_lev _ _ _ _ HW _ _ _ Hn) as (w & Hw & Hl); cbn [wop_apply]; rewrite Hw, decide_True by (rewrite Hl; done);
      eexists; (split; [reflexivity|]); (split_and!; [done..|]); intros k; cbn;
      (destruct (decide (k = id)) as [->|Hne]; [rewrite lookup_insert, Hw; cbn; by rewrite insert_length|by rewrite lookup_insert_ne]). }
    assert (Hok : wop_ok o) by (by destruct o; [done|done|apply Hrec|apply Hrec|done]).
    assert (E5 : forall id w, nodes b !! id = Some w -> exists w', nodes b' !! id = Some w' /\ length (v_conns w') = length (v_conns w)).
    { intros id w Hw. specialize (E4 id). rewrite Hw in E4. destruct (nodes b' !! id) as [w'|]; [|done]. exists w'. split; [done|]. cbn in E4. congruence. }
    exists (os ++ [o]), b'. destruct HW as [W1 W2 W3 W4 W5 W6 W7 W8 W9 W10 W11 W12 W13 W14 W15 W16 W17]. cbn in *.
    split; cbn; try done.
    + apply Forall_app. split; [done|by repeat constructor].
    + apply Forall2_app; [done|by repeat constructor].
    + by eapply wops_apply_snoc.
    + congruence.
    + congruence.
    + congruence.
    + intros id cs vec H. destruct (W7 _ _ _ H) as (w & Hw & Hl). destruct (E5 _ _ Hw) as (w' & Hw' & Hl'). exists w'. split; [done|congruence].
    + intros id [w' Hw']. apply W8. specialize (E4 id). rewrite Hw' in E4. destruct (nodes b !! id); [by eexists|done].
    + intros k H. destruct (W11 k H) as (id & -> & Hlt & Hd). exists id. split_and!; [done..|]. destruct Hd as [[w Hw]|?]; [left|by right].
      destruct (E5 _ _ Hw) as (w' & Hw' & _). by eexists.
    + intros j id vec level H. destruct (W14 _ _ _ _ H) as (Hst & w & Hw & Hl). split; [done|]. destruct (E5 _ _ Hw) as (w' & Hw' & Hl').
      exists w'. split; [done|congruence].
  - (* a list of neighbours in memory *)
    rewrite list_insert_id by done. exists os, b. destruct HW as [W1 W2 W3 W4 W5 W6 W7 W8 W9 W10 W11 W12 W13 W14 W15 W16 W17]. cbn in *.
    split; cbn; try done.
    + intros id cs0 vec0 H. destruct (decide (id = k)) as [->|Hne]; [|rewrite lookup_insert_ne in H by done; eauto].
      rewrite lookup_insert in H. injection H as <- <-. rewrite Hlen. eauto.
    + intros id H. destruct (W8 id H) as [?|?]; [left|by right]. destruct (decide (id = k)) as [->|Hne]; [rewrite lookup_insert; by eexists|].
      by rewrite lookup_insert_ne.
    + split; [|apply W9]. intros id cs0 vec0 H. cbn in H. destruct (decide (id = k)) as [->|Hne]; [|rewrite lookup_insert_ne in H by done; by eapply W9].
      rewrite lookup_insert in H. injection H as <- <-. split; [by eapply W9|done].
    + intros id cs0 vec0 H. destruct (decide (id = k)) as [->|Hne]; [|rewrite lookup_insert_ne in H by done; by eapply W10].
      rewrite lookup_insert in H. injection H as <- <-. by eapply W10.
    + intros id H. apply W12. destruct (decide (id = k)) as [->|Hne]; [by eexists|]. by rewrite lookup_insert_ne in H.
    + intros j q id H Hq. destruct (W15 _ _ _ H Hq) as [? ?]. split; [done|]. rewrite lookup_insert_ne; [done|congruence].
  - (* the entry point *)
    rewrite list_insert_id by done. exists (os ++ [WSetEntry id k]), (set_entry id k b).
    destruct HW as [W1 W2 W3 W4 W5 W6 W7 W8 W9 W10 W11 W12 W13 W14 W15 W16 W17]. cbn in *. split; cbn; try done.
    + apply Forall_app. split; [done|by repeat constructor].
    + apply Forall2_app; [done|by repeat constructor].
    + by eapply wops_apply_snoc.
  - (* a deletion mark *)
    rewrite list_insert_id by done. exists (os ++ [WDelete id]), (set_deleted ({[id]} ∪ deleted b) b).
    destruct HW as [W1 W2 W3 W4 W5 W6 W7 W8 W9 W10 W11 W12 W13 W14 W15 W16 W17]. cbn in *. split; cbn; try done.
    + apply Forall_app. split; [done|by repeat constructor].
    + apply Forall2_app; [done|by repeat constructor].
    + by eapply wops_apply_snoc.
    + congruence.
Qed.

Lemma pstep_room x u x' u' : pstep x u x' u' ->
  (p_cnt u' + N.of_nat (pg_bud x' + length (p_chan u')) = p_cnt u + N.of_nat (pg_bud x + length (p_chan u)))%N.
Proof. destruct 1; cbn [p_cnt pg_bud p_chan length]; lia. Qed.

Lemma pstep_grow x u x' u' : pstep x u x' u' -> (forall id, owned (pg_ph x) = Some id -> p_n u !! id = None) -> grow u u'.
Proof.
  intros Hs Hn. destruct Hs as [x u|p bu n e m d l c v h Hset|p bu n e m d l c v o h|id vec bs bu n e m d l c v h Hser Hvok|id vec level r bu n e m d l c v h Hid Hlv Hr
    |id vec level bu n e m d l c v h|id vec r1 r2 bu n e m d l c v h Hid Hr1 Hr2 Hn0|x o r n e m d l c v h Hrec Hr|x k cs cs' vec n e m d l c v h Hk Hlen HJ
    |x id k r n e m d l c v h Hid Hlv Hr|x id r n e m d l c v h Hid Hr]; cbn in *;
    try exact (fun n0 cs0 vec0 H => ex_intro _ cs0 (conj H eq_refl)).
  - intros n0 cs0 vec0 H. cbn in *. exists cs0. rewrite lookup_insert_ne; [done|]. intros ->. by rewrite (Hn n0) in H.
  - subst n. by intros n0 cs0 vec0 H.
  - intros n0 cs0 vec0 H. cbn in *. destruct (decide (n0 = k)) as [->|Hne].
    + exists cs'. rewrite lookup_insert. rewrite Hk in H. by injection H as -> ->.
    + exists cs0. by rewrite lookup_insert_ne.
Qed.

Lemma pW_step xs s i x x' s' :
  pW xs (pview s) -> xs !! i = Some x -> pGU x s x' s' ->
  pW (<[i := x']> xs) (pview s') /\ forall j y, j <> i -> xs !! j = Some y -> pE y s s'.
Proof.
  intros [(os & b & HW) Hc] Hi Hs. unfold pGU in Hs. pose proof (pstep_room _ _ _ _ Hs) as Hr.
  pose proof (sum_bud_ge _ _ _ Hi) as Hge. pose proof (sum_insert_bud _ _ _ x' Hi) as Hsum.
  destruct (pW0_step xs (pview s) os b i x x' (pview s') HW Hi) as (os' & b' & HW'); [unfold room; lia|done|].
  split; [split; [by exists os', b'|lia]|]. intros j y Hne Hj. split_and!.
  - apply (pstep_grow _ _ _ _ Hs). intros id Hid. eapply (pw_own _ _ _ _ HW i (pg_ph x) id); [|done]. by rewrite list_lookup_fmap, Hi.
  - intros _. apply (pw_J _ _ _ _ HW').
  - intros _. unfold room. pose proof (sum_bud_two _ _ _ _ _ (not_eq_sym Hne) Hi Hj). lia.
Qed.

(** ** Programs *)
Definition pK (x : pg) (s : st) : Prop :=
  pJ (pview s) /\ room x (pview s) /\
  match pg_ph x with
  | Idle => True
  | Own id | Put id _ | Logd id _ _ => id_ok id
  | Ins id level => id_ok id /\ level_ok level /\ exists cs vec, p_n (pview s) !! id = Some (cs, vec) /\ length cs = S level
  end.
Lemma pK_E x s s' : pK x s -> pE x s s' -> pK x s'.
Proof.
  intros (H1 & H2 & H3) (E1 & E2 & E3). split_and!; [auto..|]. destruct (pg_ph x); try done.
  destruct H3 as (Hi & Hl & cs & vec & Hn & Hlen). split_and!; [done..|]. destruct (E1 _ _ _ Hn) as (cs' & Hn' & Hl'). exists cs', vec. split; [done|congruence].
Qed.
Lemma pK_grow x s s' : pK x s -> grow (pview s) (pview s') -> pJ (pview s') -> room x (pview s') -> pK x s'.
Proof. intros HK H1 H2 H3. eapply pK_E; [exact HK|]. by split. Qed.
Lemma pE_grow x s s' : pE x s s' -> grow (pview s) (pview s'). Proof. by intros [? _]. Qed.

Definition ppost {A} (x : pg) (s : st) (Q : A -> Prop) (x2 : pg) (r : out A) (s2 : st) : Prop :=
  x2 = x /\ pK x s2 /\ grow (pview s) (pview s2) /\ forall a, r = Val a -> Q a.
Definition ps {A} (x : pg) (p : prog st A) (Q : A -> Prop) : Prop := forall s, pK x s -> pwp p (ppost x s Q) x s.

Lemma ps_bind' {A B} x (p : prog st A) (k : A -> prog st B) Q Q' s :
  pwp p (ppost x s Q) x s -> (forall a s', Q a -> pK x s' -> grow (pview s) (pview s') -> pwp (k a) (ppost x s' Q') x s') ->
  pwp (p ≫= k) (ppost x s Q') x s.
Proof.
  intros Hp Hk. apply (wp_bind _ _ _ pE_refl). eapply wp_mono; [|exact Hp].
  intros x2 r s2 (-> & HK2 & Hg & Hr). destruct r as [a|e|z]; [|by split_and!..].
  eapply wp_mono; [|by apply Hk; [apply Hr|..]]. intros x3 r3 s3 (-> & HK3 & Hg3 & Hr3). split_and!; try done. by eapply grow_trans.
Qed.
Lemma ps_bind {A B} x (p : prog st A) (k : A -> prog st B) Q Q' :
  ps x p Q -> (forall a, Q a -> ps x (k a) Q') -> ps x (p ≫= k) Q'.
Proof. intros Hp Hk s HK. eapply ps_bind'; [by apply Hp|]. intros a s' Ha HK' _. by apply Hk. Qed.
Lemma ps_lift {A} x (o : out A) (Q : A -> Prop) : (forall a, o = Val a -> Q a) -> ps x (lift o) Q.
Proof. intros HQ s HK. apply wp_done. intros s1 He. split_and!; [done|by eapply pK_E|apply He|done]. Qed.
Lemma ps_ret {A} x (a : A) (Q : A -> Prop) : Q a -> ps x (mret a) Q.
Proof. intros HQ. apply (ps_lift x (Val a)). by intros b <-%Val_inj. Qed.
Lemma ps_pan {A} x z (Q : A -> Prop) : ps x (Done (Pan z)) Q.
Proof. by apply (ps_lift x (Pan z)). Qed.

Lemma pK_own_step x s s' : pK x s -> pstep x (pview s) x (pview s') -> (forall i, owned (pg_ph x) = Some i -> p_n (pview s) !! i = None) ->
  pJ (pview s') -> pK x s' /\ grow (pview s) (pview s').
Proof.
  intros HK Hs Hn HJ. pose proof (pstep_grow _ _ _ _ Hs Hn) as Hg. split; [|done]. eapply pK_grow; [done..|].
  pose proof (pstep_room _ _ _ _ Hs). destruct HK as (_ & Hr & _). unfold room in *. lia.
Qed.
(** Steps that change neither the thread's phase nor the set of vertices. *)
Inductive mild (x : pg) : pv -> pv -> Prop :=
| MNop u : mild x u u
| MRec o r n e m d l c v h : rec_ok (PV n e m d l c v h) o -> enc_wop o = Val r -> mild x (PV n e m d l c v h) (PV n e m d (l ++ [r]) c v h)
| MMem i cs cs' vec n e m d l c v h : n !! i = Some (cs, vec) -> length cs' = length cs -> Forall (Forall id_ok) cs' ->
    mild x (PV n e m d l c v h) (PV (<[i := (cs', vec)]> n) e m d l c v h)
| MEntry id k r n e m d l c v h : id_ok id -> level_ok k -> enc_wop (WSetEntry id k) = Val r -> mild x (PV n e m d l c v h) (PV n id k d (l ++ [r]) c v h)
| MDel id r n e m d l c v h : id_ok id -> enc_wop (WDelete id) = Val r -> mild x (PV n e m d l c v h) (PV n e m ({[id]} ∪ d) (l ++ [r]) c v h).
Lemma mild_step x u u' : mild x u u' -> pstep x u x u'.
Proof. destruct 1; by econstructor. Qed.
Lemma mild_grow x u u' : mild x u u' -> grow u u' /\ (pJ u -> pJ u').
Proof.
  intros Hm. assert (Hg : grow u u').
  { destruct Hm as [u|o r n e m d l c v h H1 H2|i cs cs' vec n e m d l c v h Hk Hlen HJ|id k r n e m d l c v h H1 H2 H3|id r n e m d l c v h H1 H2];
      try exact (fun n0 cs0 vec0 H => ex_intro _ cs0 (conj H eq_refl)).
    intros n0 cs0 vec0 H. cbn in *. destruct (decide (n0 = i)) as [->|Hne]; [|exists cs0; by rewrite lookup_insert_ne].
    exists cs'. rewrite lookup_insert. rewrite Hk in H. by injection H as -> ->. }
  split; [done|]. destruct Hm as [u|o r n e m d l c v h H1 H2|i cs cs' vec n e m d l c v h Hk Hlen HJ|id k r n e m d l c v h H1 H2 H3|id r n e m d l c v h H1 H2]; try done.
  intros [HJ0 Hch]. split; [|done]. intros n0 cs0 vec0 H. cbn in *. destruct (decide (n0 = i)) as [->|Hne]; [|rewrite lookup_insert_ne in H by done; by eapply HJ0].
  rewrite lookup_insert in H. injection H as <- <-. split; [by eapply HJ0|done].
Qed.
Lemma mild_K x s s' : pK x s -> mild x (pview s) (pview s') -> pK x s' /\ grow (pview s) (pview s').
Proof.
  intros HK Hm. destruct (mild_grow _ _ _ Hm) as [Hg HJ]. split; [|done]. pose proof HK as (H1 & H2 & H3).
  eapply pK_grow; [done..|by apply HJ|]. pose proof (pstep_room _ _ _ _ (mild_step _ _ _ Hm)). unfold room in *. lia.
Qed.
Lemma ps_act {A} x (f : st -> st * out A) (Q : A -> Prop) :
  (forall s, pK x s -> mild x (pview s) (pview (fst (f s))) /\ forall a, snd (f s) = Val a -> Q a) -> ps x (act f) Q.
Proof.
  intros Hf s HK. apply wp_act. intros s1 He. pose proof (pK_E _ _ _ HK He) as HK1. destruct (Hf s1 HK1) as [Hm HQ].
  exists x. split; [by apply mild_step|]. intros s3 He3. destruct (mild_K _ _ _ HK1 Hm) as [HK2 Hg].
  split_and!; [done|by eapply pK_E| |done]. eapply grow_trans; [apply He|]. eapply grow_trans; [exact Hg|apply He3].
Qed.
Lemma ps_act_lock {A} x (f : st -> option (st * out A)) (Q : A -> Prop) :
  (forall s s' r, pK x s -> f s = Some (s', r) -> mild x (pview s) (pview s') /\ forall a, r = Val a -> Q a) -> ps x (act_lock f) Q.
Proof.
  intros Hf s HK. apply wp_act_lock. intros s1 He. pose proof (pK_E _ _ _ HK He) as HK1. specialize (Hf s1). destruct (f s1) as [[s2 r]|]; [|done].
  destruct (Hf s2 r HK1 eq_refl) as [Hm HQ]. exists x. split; [by apply mild_step|]. intros s3 He3. destruct (mild_K _ _ _ HK1 Hm) as [HK2 Hg].
  split_and!; [done|by eapply pK_E| |done]. eapply grow_trans; [apply He|]. eapply grow_trans; [exact Hg|apply He3].
Qed.
Lemma ps_read {A} x (f : st -> out A) (Q : A -> Prop) :
  (forall s a, pK x s -> f s = Val a -> Q a) -> ps x (act (fun s => (s, f s))) Q.
Proof. intros HQ. apply ps_act. intros s HK. split; [constructor|]. intros a Ha. by eapply HQ. Qed.

(** ** Views after the writes *)
Lemma flat_lookup s n : p_n (pview s) !! n = flat <$> nodes s !! n.
Proof. apply lookup_fmap. Qed.
Lemma pview_lock s n v lk : nodes s !! n = Some v -> pview (set_nodes (<[n := Vertex (v_conns v) (v_vec v) lk]> (nodes s)) s) = pview s.
Proof.
  intros Hn. unfold pview. cbn [nodes set_nodes ep maxl deleted cnt vecs chan]. f_equal.
  rewrite fmap_insert. apply insert_id. by rewrite lookup_fmap, Hn.
Qed.
Lemma log_append r s : log_view (wal_append r s) = log_view s ++ [r].
Proof. unfold log_view. cbn. by rewrite fmap_app, app_assoc. Qed.
Lemma pview_append r s : pview (wal_append r s) =
  PV (flat <$> nodes s) (ep s) (maxl s) (deleted s) (log_view s ++ [r]) (cnt s) (vecs s) (chan s).
Proof. unfold pview. by rewrite log_append. Qed.
Lemma pview_nodes s n v : pview (set_nodes (<[n := v]> (nodes s)) s) =
  PV (<[n := flat v]> (flat <$> nodes s)) (ep s) (maxl s) (deleted s) (log_view s) (cnt s) (vecs s) (chan s).
Proof. unfold pview. cbn [nodes set_nodes ep maxl deleted cnt vecs chan]. by rewrite fmap_insert. Qed.

Section progs.
  Context (C : cparams).
  Notation P := (cp_h C).
  Context (Hmax : (cp_maxval C < 2 ^ 32)%N).
  Context (Hdeg : (N.of_nat (Nat.max (hp_m P) (2 * hp_mMax P)) < 2 ^ 32)%N).
  Notation oke := (oke id_ok).
  Notation okx := (okx id_ok).

  Lemma pK_node x s n v : pK x s -> nodes s !! n = Some v -> id_ok n /\ Forall (Forall id_ok) (v_conns v).
  Proof using Hmax Hdeg. intros ([HJ _] & _) Hn. apply (HJ n (v_conns v) (v_vec v)). by rewrite flat_lookup, Hn. Qed.

  Lemma ps_read_vertex x n : ps x (read_vertex n) (fun _ => id_ok n).
  Proof using Hmax Hdeg.
    apply ps_read. intros s v HK Hv. destruct (nodes s !! n) as [w|] eqn:E; [|done]. by eapply pK_node.
  Qed.
  Lemma ps_read_conns x t n l : ps x (read_conns P t n l) (Forall id_ok).
  Proof using Hmax Hdeg.
    apply ps_act_lock. intros s s' r HK. destruct (nodes s !! n) as [v|] eqn:En.
    2:{ intros [<- <-]%Some_pair_inj. split; [constructor|done]. }
    destruct (v_lock v); [done|]. destruct (pK_node _ _ _ _ HK En) as [_ HF].
    destruct (v_conns v !! l) as [cs|] eqn:El.
    2:{ intros [<- <-]%Some_pair_inj. rewrite pview_lock by done. split; [constructor|done]. }
    case_decide; intros [<- <-]%Some_pair_inj; rewrite ?pview_lock by done; (split; [constructor|]); [|done].
    intros a <-%Val_inj. by eapply Forall_lookup_1.
  Qed.
  Lemma ps_visit_conns x q ef cs y : Forall id_ok cs -> okx y -> ps x (visit_conns P q ef cs y) okx.
  Proof using Hmax Hdeg.
    revert y. induction cs as [|c cs IH]; intros y Hcs Hx; cbn [visit_conns]; [by apply ps_ret|].
    apply Forall_cons in Hcs as [Hc Hcs]. case_bool_decide; [by apply IH|].
    eapply ps_bind; [by apply (ps_lift _ _ (fun _ => True))|intros _ _].
    eapply ps_bind; [apply ps_read_vertex|intros v _].
    eapply ps_bind; [by apply (ps_lift _ _ (fun _ => True))|intros d _].
    eapply ps_bind; [apply (ps_lift _ _ okx)|intros x' Hx'; by apply IH].
    intros x' Hx'. eapply consider_okx; [exact Hc| |exact Hx']. done.
  Qed.
  Lemma ps_search_loop x t fuel q ef l y : okx y -> ps x (search_loop P t fuel q ef l y) okx.
  Proof using Hmax Hdeg.
    revert y. induction fuel as [|fuel IH]; intros y Hx; cbn [search_loop]; destruct (sl_cands y) as [|e0 es] eqn:Ec;
      try by (apply ps_ret || apply ps_pan).
    rewrite <- Ec.
    eapply ps_bind; [apply (ps_lift _ _ (fun '(c, cands) => id_ok (e_id c) /\ oke cands))|].
    { intros [c cands] Hp. eapply heap_pop_oke; [exact Hp|apply Hx]. }
    intros [c cands] [Hc Hcands]. eapply ps_bind; [by apply (ps_lift _ _ (fun _ => True))|intros f _].
    destruct (fltb _ _). { apply ps_ret. by split; [|apply Hx]. }
    eapply ps_bind; [apply ps_read_conns|intros conns Hconns].
    eapply ps_bind; [apply ps_visit_conns; [done|by split; [|apply Hx]]|intros x' Hx']. by apply IH.
  Qed.
  Lemma ps_search_layer x t fuel q eps ef l : oke eps -> ps x (search_layer P t fuel q eps ef l) oke.
  Proof using Hmax Hdeg.
    intros He. unfold search_layer.
    eapply ps_bind; [apply (ps_lift _ _ oke)|intros cands Hc].
    { unfold new_min_heap_deep. intros a. case_decide; [|done]. intros <-%Val_inj. by apply heap_init_oke. }
    eapply ps_bind; [apply (ps_lift _ _ oke)|intros near Hn].
    { unfold new_max_heap_deep. intros a. case_decide; [|done]. intros <-%Val_inj. by apply heap_init_oke. }
    eapply ps_bind; [by apply ps_search_loop|intros y Hx]. apply ps_ret, Hx.
  Qed.
  Lemma ps_descend x t fuel q l stop e : id_ok (e_id e) -> ps x (descend P t fuel q l stop e) (fun e => id_ok (e_id e)).
  Proof using Hmax Hdeg.
    revert e. induction l as [|l IH]; intros e He; cbn [descend]; [by apply ps_ret|].
    destruct (stop <? S l); [|by apply ps_ret].
    eapply ps_bind; [apply ps_search_layer; by constructor|intros near Hn].
    eapply ps_bind; [apply (ps_lift _ _ (fun e => id_ok (e_id e)))|intros e' He'; by apply IH].
    intros e' He'. destruct near; [done|]. apply Val_inj in He' as <-. by apply Forall_cons in Hn as [? _].
  Qed.
  Lemma ps_heur_check x e res : ps x (heur_check P e res) (fun _ => True).
  Proof using Hmax Hdeg.
    induction res as [|r res IH]; cbn [heur_check]; [by apply ps_ret|].
    eapply ps_bind; [by apply (ps_read _ _ (fun _ => True))|intros [ev rv] _].
    eapply ps_bind; [by apply (ps_lift _ _ (fun _ => True))|intros d _]. destruct (fltb _ _); [by apply ps_ret|exact IH].
  Qed.
  Lemma ps_heur_loop x n q m res :
    oke q -> Forall id_ok res -> length res <= m -> ps x (heur_loop P n q m res) (fun ns => Forall id_ok ns /\ length ns <= m).
  Proof using Hmax Hdeg.
    revert q res. induction n as [|n IH]; intros q res Hq Hr Hl; cbn [heur_loop]; destruct q as [|e0 q0] eqn:Eq; rewrite <- ?Eq in *;
      try (apply ps_ret; by split); (destruct (length res <? m) eqn:Em; [|apply ps_ret; by split]).
    { apply ps_pan. }
    apply Nat.ltb_lt in Em.
    eapply ps_bind; [apply (ps_lift _ _ (fun '(c, cands) => id_ok (e_id c) /\ oke cands))|].
    { intros [c cands] Hp. eapply heap_pop_oke; [exact Hp|done]. }
    intros [e q'] [He Hq']. eapply ps_bind; [apply ps_heur_check|intros ok _]. apply IH; [done|..]; destruct ok; try done.
    - apply Forall_app. split; [done|by constructor].
    - rewrite app_length. cbn. lia.
  Qed.
  Lemma ps_select x cands m : oke cands -> ps x (select_neighbors P cands m) (fun ns => Forall id_ok ns /\ length ns <= m).
  Proof using Hmax Hdeg.
    intros Ho. unfold select_neighbors. destruct (hp_heuristic P).
    - unfold select_heuristic. apply ps_heur_loop; [by apply heap_init_oke|constructor|cbn; lia].
    - apply ps_lift. intros ns Hns. unfold select_simple in Hns. apply (pop_ids_oke id_ok) in Hns as [H1 H2]; [split; [done|lia]|]. by apply heap_init_oke.
  Qed.
  Lemma ps_conn_elems x base cs : Forall id_ok cs -> ps x (conn_elems P base cs) oke.
  Proof using Hmax Hdeg.
    induction cs as [|c cs IH]; intros Hcs; cbn [conn_elems]; [apply ps_ret; constructor|].
    apply Forall_cons in Hcs as [Hc Hcs].
    eapply ps_bind; [apply ps_read_vertex|intros v _].
    eapply ps_bind; [by apply (ps_lift _ _ (fun _ => True))|intros d _].
    eapply ps_bind; [by apply IH|intros es Hes]. apply ps_ret. by constructor.
  Qed.

  (** A vertex with a layer. *)
  Definition has (n : N) (l : nat) (u : pv) : Prop := exists cs vec, p_n u !! n = Some (cs, vec) /\ l < length cs.
  Lemma has_grow n l u u' : has n l u -> grow u u' -> has n l u'.
  Proof using Hmax Hdeg. intros (cs & vec & Hn & Hl) Hg. destruct (Hg _ _ _ Hn) as (cs' & Hn' & Hl'). exists cs', vec. split; [done|lia]. Qed.

  Lemma pwp_wal_rec x s o (Q : unit -> Prop) n l :
    (exists ns, o = WSetConns n l ns) \/ (exists c, o = WAddConn n l c) ->
    wop_ok o -> Q tt -> pK x s -> has n l (pview s) -> pwp (wal_write (enc_wop o)) (ppost x s Q) x s.
  Proof using Hmax Hdeg.
    intros Ho Hok HQ HK Hh. destruct (enc_wop_total o) as [r Hr]. rewrite Hr. cbn [wal_write].
    apply wp_act. intros s1 He. pose proof (pK_E _ _ _ HK He) as HK1. cbn [fst snd].
    assert (Hm : mild x (pview s1) (pview (wal_append r s1))).
    { rewrite pview_append. apply (MRec x o); [|done]. pose proof (has_grow _ _ _ _ Hh (pE_grow _ _ _ He)) as Hh1.
      destruct Ho as [[ns ->]|[c ->]]; by split. }
    exists x. split; [by apply mild_step|]. intros s3 He3. destruct (mild_K _ _ _ HK1 Hm) as [HK2 Hg].
    split_and!; [done|by eapply pK_E| |by intros []]. eapply grow_trans; [apply He|]. eapply grow_trans; [exact Hg|apply He3].
  Qed.

  Lemma upd_ok (cs : list (list N)) l ns : Forall (Forall id_ok) cs -> Forall id_ok ns -> Forall (Forall id_ok) (<[l := ns]> cs).
  Proof using Hmax Hdeg. intros H1 H2. by apply Forall_insert. Qed.
  Lemma ps_add_conn_unlock x n l id : id_ok id -> ps x (add_conn_unlock n l id) (fun _ => True).
  Proof using Hmax Hdeg.
    intros Hid. apply ps_act. intros s HK. destruct (nodes s !! n) as [v|] eqn:En; [|split; [constructor|done]].
    unfold vertex_add_conn. destruct (v_conns v !! l) as [cs|] eqn:El; cbn [or_pan mbind out_bind]; [|split; [constructor|done]].
    cbn [fst snd v_conns v_vec]. split; [|done]. rewrite pview_nodes. destruct (pK_node _ _ _ _ HK En) as [_ HF].
    unfold pview. eapply (MMem x n (v_conns v) _ (v_vec v)); [by rewrite lookup_fmap, En|cbn; by rewrite insert_length|].
    apply upd_ok; [done|]. apply Forall_app. split; [by eapply Forall_lookup_1|by constructor].
  Qed.
  Lemma ps_set_conns_unlock x n l ns : Forall id_ok ns -> ps x (set_conns_unlock n l ns) (fun _ => True).
  Proof using Hmax Hdeg.
    intros Hid. apply ps_act. intros s HK. destruct (nodes s !! n) as [v|] eqn:En; [|split; [constructor|done]].
    unfold vertex_set_conns. destruct (v_conns v !! l) as [cs|] eqn:El; cbn [or_pan mbind out_bind]; [|split; [constructor|done]].
    cbn [fst snd v_conns v_vec]. split; [|done]. rewrite pview_nodes. destruct (pK_node _ _ _ _ HK En) as [_ HF].
    unfold pview. eapply (MMem x n (v_conns v) _ (v_vec v)); [by rewrite lookup_fmap, En|cbn; by rewrite insert_length|]. by apply upd_ok.
  Qed.
  Lemma ps_set_conns_unlocked x n l ns : Forall id_ok ns -> ps x (set_conns_unlocked n l ns) (fun _ => True).
  Proof using Hmax Hdeg.
    intros Hid. apply ps_act. intros s HK. destruct (nodes s !! n) as [v|] eqn:En; [|split; [constructor|done]].
    unfold vertex_set_conns. destruct (v_conns v !! l) as [cs|] eqn:El; cbn [or_pan mbind out_bind]; [|split; [constructor|done]].
    cbn [fst snd v_conns v_vec]. split; [|done]. rewrite pview_nodes. destruct (pK_node _ _ _ _ HK En) as [_ HF].
    unfold pview. eapply (MMem x n (v_conns v) _ (v_vec v)); [by rewrite lookup_fmap, En|cbn; by rewrite insert_length|]. by apply upd_ok.
  Qed.

  Lemma ps_link_one x t id vec l n :
    id_ok id -> level_ok l -> ps x (link_one P t id vec l (match l with O => mMax0 P | _ => hp_mMax P end) n) (fun _ => True).
  Proof using Hmax Hdeg.
    intros Hid Hl s HK. unfold link_one. apply (wp_bind _ _ _ pE_refl). unfold lock_conns. apply wp_act_lock. intros s1 He.
    pose proof (pK_E _ _ _ HK He) as HK1. destruct (nodes s1 !! n) as [v|] eqn:En.
    2:{ exists x. split; [apply mild_step; constructor|]. intros s3 He3. split_and!; [done|by eapply pK_E| |done].
        eapply grow_trans; [apply He|apply He3]. }
    destruct (v_lock v); [done|]. destruct (pK_node _ _ _ _ HK1 En) as [Hn HF]. destruct (v_conns v !! l) as [cs|] eqn:El.
    2:{ exists x. split; [unfold pGU; rewrite pview_lock by done; apply mild_step; constructor|]. intros s3 He3.
        unfold pE in He3. rewrite pview_lock in He3 by done. split_and!; [done|eapply pK_E; [exact HK1|exact He3]| |done].
        eapply grow_trans; [apply He|apply He3]. }
    exists x. split; [unfold pGU; rewrite pview_lock by done; apply mild_step; constructor|]. intros s2 He2.
    unfold pE in He2. rewrite pview_lock in He2 by done.
    assert (HK2 : pK x s2) by (eapply pK_E; [exact HK1|exact He2]).
    assert (Hcs : Forall id_ok cs) by (by eapply Forall_lookup_1).
    assert (Hh2 : has n l (pview s2)).
    { eapply has_grow; [|apply He2]. exists (v_conns v), (v_vec v). split; [by rewrite flat_lookup, En|by eapply lookup_lt_Some]. }
    assert (Hg2 : grow (pview s) (pview s2)) by (eapply grow_trans; [apply He|apply He2]). clear HF En El He2 He HK1.
    eapply (wp_mono _ _ _ _ (ppost x s2 (fun _ => True))).
    { intros x3 r3 s3 (-> & HK3 & Hg3 & _). split_and!; [done..| |done]. by eapply grow_trans. }
    assert (Hmc : (N.of_nat (match l with O => mMax0 P | _ => hp_mMax P end) < 2 ^ 32)%N) by (unfold mMax0; destruct l; lia).
    destruct (length cs <? _).
    - eapply (ps_bind' x _ _ (fun _ => True)); [|intros [] s3 _ HK3 Hg3; by apply ps_add_conn_unlock].
      apply (pwp_wal_rec x s2 (WAddConn n l id) _ n l); try done. right. by eexists.
    - eapply (ps_bind' x _ _ (fun _ => True)); [by apply ps_lift|]. intros d s3 _ HK3 Hg3.
      eapply ps_bind'; [by apply ps_conn_elems|]. intros es s4 Hes HK4 Hg4.
      eapply ps_bind'; [apply ps_select; [by constructor|done]|]. intros ns s5 [Hns Hnl] HK5 Hg5.
      eapply (ps_bind' x _ _ (fun _ => True)); [|intros [] s6 _ HK6 Hg6; by apply ps_set_conns_unlock].
      apply (pwp_wal_rec x s5 (WSetConns n l ns) _ n l); try done; [left; by eexists| |].
      + split_and!; try done. lia.
      + eapply has_grow; [exact Hh2|]. eapply grow_trans; [exact Hg3|]. by eapply grow_trans.
  Qed.
  Lemma ps_link_all x t id vec l ns :
    id_ok id -> level_ok l -> ps x (link_all P t id vec l (match l with O => mMax0 P | _ => hp_mMax P end) ns) (fun _ => True).
  Proof using Hmax Hdeg.
    intros Hid Hl. induction ns as [|n ns IH]; cbn [link_all]; [by apply ps_ret|].
    eapply ps_bind; [by apply ps_link_one|intros _ _; exact IH].
  Qed.

  Lemma ps_construct bu t fuel id vec level l eps :
    id_ok id -> level_ok level -> l <= level -> oke eps -> ps (PG (Ins id level) bu) (construct P t fuel id vec l eps) (fun _ => True).
  Proof using Hmax Hdeg.
    intros Hid Hlv. revert eps. induction l as [|l IH]; intros eps Hl He; cbn [construct].
    all: eapply ps_bind; [by apply ps_search_layer|intros near Hn].
    all: eapply ps_bind; [by apply ps_select|intros ns [Hns Hlen]].
    all: intros s HK.
    - eapply (ps_bind' _ _ _ (fun _ => True)).
      { apply (pwp_wal_rec _ s (WSetConns id 0 ns) _ id 0); try done; [left; by eexists|split_and!; [done..|lia]|].
        destruct HK as (_ & _ & _ & _ & cs & vec' & Hcs & Hcl). exists cs, vec'. split; [done|lia]. }
      intros _ s1 _ HK1 _. revert s1 HK1. change (ps (PG (Ins id level) bu) (set_conns_unlocked id 0 ns;; link_all P t id vec 0 (mMax0 P) ns;; mret tt) (fun _ => True)).
      eapply ps_bind; [by apply ps_set_conns_unlocked|intros _ _].
      eapply ps_bind; [by apply (ps_link_all _ t id vec 0)|intros _ _]. by apply ps_ret.
    - assert (Hlo : level_ok (S l)) by (unfold level_ok in *; lia).
      eapply (ps_bind' _ _ _ (fun _ => True)).
      { apply (pwp_wal_rec _ s (WSetConns id (S l) ns) _ id (S l)); try done; [left; by eexists|split_and!; [done..|lia]|].
        destruct HK as (_ & _ & _ & _ & cs & vec' & Hcs & Hcl). exists cs, vec'. split; [done|lia]. }
      intros _ s1 _ HK1 _. revert s1 HK1. change (ps (PG (Ins id level) bu) (set_conns_unlocked id (S l) ns;; link_all P t id vec (S l) (hp_mMax P) ns;; construct P t fuel id vec l near) (fun _ => True)).
      eapply ps_bind; [by apply ps_set_conns_unlocked|intros _ _].
      eapply ps_bind; [by apply (ps_link_all _ t id vec (S l))|intros _ _]. apply IH; [lia|done].
  Qed.
  Lemma ps_raise_entry x id level cur : id_ok id -> level_ok level -> ps x (raise_entry id level cur) (fun _ => True).
  Proof using Hmax Hdeg.
    intros Hid Hl. unfold raise_entry. destruct (enc_wop_total (WSetEntry id level)) as [r Hr]. cbn [enc_wop] in Hr. rewrite Hr.
    apply ps_act. intros s HK. destruct (cur <? level); [|split; [constructor|done]]. cbn [fst snd]. split; [|done].
    unfold pview. replace (log_view (set_entry id level (wal_append r s))) with (log_view s ++ [r]) by (symmetry; apply (log_append r s)).
    by apply (MEntry x id level r).
  Qed.
  Lemma ps_read_entry x : ps x read_entry (fun '(epid, _, _) => id_ok epid).
  Proof using Hmax Hdeg.
    apply ps_read. intros s [[epid epv] cur] HK. destruct (nodes s !! ep s) as [v|] eqn:E; cbn [or_pan mbind out_bind]; [|done].
    intros Ha%Val_inj. injection Ha as <- <- <-. by eapply pK_node.
  Qed.

  (** ** Whole inserts *)
  Definition done_post {A} (bu : nat) (x : pg) (r : out A) (s : st) : Prop := settled (pg_ph x) /\ pg_bud x = bu /\ pK x s.

  Lemma pwp_hnsw_insert t fuel level vec id bu s :
    level_ok level -> pK (PG (Put id vec) bu) s ->
    pwp (hnsw_insert P t fuel level vec id) (done_post bu) (PG (Put id vec) bu) s.
  Proof using Hmax Hdeg.
    intros Hl HK. pose proof HK as (_ & _ & Hid). cbn in Hid. unfold hnsw_insert. apply (wp_bind _ _ _ pE_refl).
    unfold once_insert. destruct (enc_wop_total (WSetEntry id 0)) as [r1 H1], (enc_wop_total (WAddVertex id 0)) as [r2 H2].
    pose proof H1 as H1'. pose proof H2 as H2'. cbn [enc_wop] in H1', H2'. rewrite H1', H2'.
    assert (Hrest : forall s, pK (PG (Put id vec) bu) s ->
      pwp (wal_write (enc_add_vertex id level);; add_node id level vec;; '(epid, epv, cur) ← read_entry; d ← lift (dist P (v_vec epv) vec);
        e ← descend P t fuel vec cur level (Elem epid d); construct P t fuel id vec (Nat.min cur level) [e];; raise_entry id level cur)
        (done_post bu) (PG (Put id vec) bu) s).
    { clear s HK. intros s HK. apply (wp_bind _ _ _ pE_refl). destruct (enc_wop_total (WAddVertex id level)) as [r Hr].
      pose proof Hr as Hr'. cbn [enc_wop] in Hr'. rewrite Hr'. cbn [wal_write]. apply wp_act. intros s1 He1. cbn [fst snd].
      pose proof (pK_E _ _ _ HK He1) as HK1. exists (PG (Logd id vec level) bu). split.
      { unfold pGU. rewrite pview_append. by apply PLogv. }
      intros s2 He2. apply (wp_bind _ _ _ pE_refl). unfold add_node. apply wp_act. intros s3 He3. cbn [fst snd].
      assert (HK3 : pK (PG (Logd id vec level) bu) s3).
      { eapply pK_E; [|exact He3]. eapply pK_E; [|exact He2]. destruct HK1 as (J1 & J2 & J3). by split_and!. }
      exists (PG (Ins id level) bu). split; [unfold pGU; rewrite pview_nodes; apply PAdd|].
      set (s4 := set_nodes _ s3). assert (HK4 : pK (PG (Ins id level) bu) s4).
      { destruct HK3 as (J1 & J2 & _). split_and!.
        - split; [|apply J1]. intros n cs v. unfold s4. rewrite pview_nodes. cbn [p_n]. destruct (decide (n = id)) as [->|Hne].
          + rewrite lookup_insert. intros [= <- <-]. split; [done|]. unfold init_conns. apply Forall_replicate. constructor.
          + rewrite lookup_insert_ne by done. apply J1.
        - exact J2.
        - cbn. split_and!; [done..|]. exists (init_conns level), vec. rewrite lookup_fmap, lookup_insert. split; [done|].
          unfold init_conns. rewrite replicate_length. lia. }
      intros s5 He5. pose proof (pK_E _ _ _ HK4 He5) as HK5. clear HK4 He5 HK3 He3 He2 HK1 He1 HK.
      eapply wp_mono; [|refine (_ s5 HK5 : pwp _ (ppost (PG (Ins id level) bu) s5 (fun _ => True)) _ _)].
      { intros x' r' s' (-> & HK' & _ & _). by split_and!. }
      eapply ps_bind; [apply ps_read_entry|]. intros [[epid epv] cur] Hep.
      eapply ps_bind; [by apply (ps_lift _ _ (fun _ => True))|intros d _].
      eapply ps_bind; [by apply ps_descend|intros e He].
      eapply ps_bind; [apply ps_construct; [done|done|lia|by constructor]|intros _ _]. by apply ps_raise_entry. }
    apply wp_act. intros s1 He1. pose proof (pK_E _ _ _ HK He1) as HK1.
    destruct (once s1) eqn:Eo; cbn [fst snd].
    { exists (PG (Put id vec) bu). split; [apply PNop|]. intros s2 He2. apply Hrest. by eapply pK_E. }
    cbn zeta. case_bool_decide as Hem; cbn [fst snd].
    2:{ exists (PG (Put id vec) bu). split; [apply PNop|]. intros s2 He2. apply Hrest. eapply (pK_E _ s1); [done|exact He2]. }
    exists (PG (Ins id 0) bu). change (nodes (set_once true s1)) with (nodes s1) in Hem.
    match goal with |- pGU _ _ _ ?z /\ _ => set (s2 := z) end.
    assert (Ev : pview s2 = PV (<[id := (init_conns 0, vec)]> (flat <$> nodes s1)) id 0 (deleted s1) (log_view s1 ++ [r1; r2]) (cnt s1) (vecs s1) (chan s1)).
    { unfold s2, pview, log_view. cbn. by rewrite fmap_insert, !fmap_app, <- !app_assoc. }
    split.
    { unfold pGU. rewrite Ev. unfold pview. apply POnce; try done. rewrite Hem. apply fmap_empty. }
    intros s3 He3. apply wp_ret. intros s4 He4. split_and!; [done..|]. eapply pK_E; [|exact He4]. eapply pK_E; [|exact He3].
    destruct HK1 as (J1 & J2 & _). split_and!.
    - split; [|rewrite Ev; apply J1]. intros n cs v. rewrite Ev. cbn [p_n]. rewrite Hem, fmap_empty. destruct (decide (n = id)) as [->|Hne].
      + rewrite lookup_insert. intros [= <- <-]. split; [done|]. by repeat constructor.
      + by rewrite lookup_insert_ne.
    - unfold room in *. rewrite Ev. exact J2.
    - cbn [pg_ph]. split_and!; [done..|]. exists (init_conns 0), vec. rewrite Ev. cbn [p_n]. by rewrite lookup_insert.
  Qed.

  Lemma pK_nop x s s' : pview s' = pview s -> pK x s -> pK x s'.
  Proof using Hmax Hdeg. unfold pK. by intros ->. Qed.

  Lemma pwp_insert_one t level o p bu s :
    settled p -> fed_ok (o, level) -> pK (PG p (S bu)) s ->
    pwp (insert_one C t level o) (done_post bu) (PG p (S bu)) s.
  Proof using Hmax Hdeg.
    intros Hset [Hfl Hlv] HK. cbn [fst snd] in *. unfold insert_one. apply (wp_bind _ _ _ pE_refl). unfold fetch_and_inc.
    apply wp_act. intros s1 He1. pose proof (pK_E _ _ _ HK He1) as HK1. cbn zeta.
    assert (Hc : u64 (cnt s1 + 1) = (cnt s1 + 1)%N).
    { apply u64_small. destruct HK1 as (_ & Hr & _). unfold room in Hr. cbn in Hr. lia. }
    exists (PG (Own (cnt s1)) bu).
    assert (HK2 : forall s2, pview s2 = PV (flat <$> nodes s1) (ep s1) (maxl s1) (deleted s1) (log_view s1) (cnt s1 + 1) (vecs s1) (chan s1) -> pK (PG (Own (cnt s1)) bu) s2).
    { intros s2 Ev. destruct HK1 as (J1 & J2 & _). split_and!; unfold room; rewrite ?Ev; [exact J1| |]; unfold room in J2; cbn in *; [lia|unfold id_ok; lia]. }
    assert (Hg : forall s2, pview s2 = PV (flat <$> nodes s1) (ep s1) (maxl s1) (deleted s1) (log_view s1) (cnt s1 + 1) (vecs s1) (chan s1) ->
      pGU (PG p (S bu)) s1 (PG (Own (cnt s1)) bu) s2).
    { intros s2 Ev. unfold pGU. rewrite Ev. by apply PFetch. }
    set (id := cnt s1) in *.
    destruct (closed s1); cbn [fst snd].
    { split; [apply Hg; unfold pview; cbn; by rewrite Hc|]. intros s3 He3. split_and!; [done..|]. eapply pK_E; [|exact He3].
      apply HK2. unfold pview. cbn. by rewrite Hc. }
    split; [apply Hg; unfold pview; cbn; by rewrite Hc|]. intros s3 He3.
    assert (HK3 : pK (PG (Own id) bu) s3).
    { eapply pK_E; [|exact He3]. apply HK2. unfold pview. cbn. by rewrite Hc. }
    clear HK2 Hg He3 HK1 He1 Hc. clearbody id. clear s1 HK s.
    (* put_object *)
    apply (wp_bind _ _ _ pE_refl). unfold put_object. cbn [o_props o_id]. change (vec_or_nil (Object id (o_props o) (o_vec o))) with (vec_or_nil o).
    apply (wp_bind _ _ _ pE_refl), wp_done. intros s4 He4. pose proof (pK_E _ _ _ HK3 He4) as HK4.
    destruct (ser_props (cp_json C) (o_props o)) as [ob|e|z]; [|by split_and!..].
    apply (wp_bind _ _ _ pE_refl), wp_done. intros s5 He5. pose proof (pK_E _ _ _ HK4 He5) as HK5.
    destruct (ser_vec (vec_or_nil o)) as [vb|e|z] eqn:Es; [|by split_and!..].
    apply (wp_bind _ _ _ pE_refl), wp_act. intros s6 He6. pose proof (pK_E _ _ _ HK5 He6) as HK6. unfold bc_put at 1 2 3 4.
    exists (PG (Own id) bu). destruct (cp_maxval C <? N.of_nat (length ob))%N; cbn [fst snd].
    { split; [apply PNop|]. intros s7 He7. split_and!; [done..|]. by eapply pK_E. }
    destruct (closed s6); cbn [fst snd].
    { split; [apply PNop|]. intros s7 He7. split_and!; [done..|]. by eapply pK_E. }
    split; [apply PNop|]. intros s7 He7. assert (HK7 : pK (PG (Own id) bu) s7) by (eapply (pK_E _ s6); [done|exact He7]).
    apply wp_act. intros s8 He8. pose proof (pK_E _ _ _ HK7 He8) as HK8. unfold bc_put.
    destruct (cp_maxval C <? N.of_nat (length vb))%N eqn:Em; cbn [fst snd].
    { exists (PG (Own id) bu). split; [apply PNop|]. intros s9 He9. split_and!; [done..|]. by eapply pK_E. }
    destruct (closed s8); cbn [fst snd].
    { exists (PG (Own id) bu). split; [apply PNop|]. intros s9 He9. split_and!; [done..|]. by eapply pK_E. }
    apply N.ltb_ge in Em.
    assert (Hvok : vec_ok (vec_or_nil o)).
    { split; [done|]. apply ser_vec_length in Es. unfold fvec, f32 in *. lia. }
    exists (PG (Put id (vec_or_nil o)) bu). split; [by apply PPut|]. intros s9 He9.
    assert (HK9 : pK (PG (Put id (vec_or_nil o)) bu) s9).
    { eapply pK_E; [|exact He9]. destruct HK8 as (J1 & J2 & J3). by split_and!. }
    apply (wp_bind _ _ _ pE_refl). eapply wp_mono; [|by apply pwp_hnsw_insert].
    intros x' [a|e|z] s' Hp; [|exact Hp..]. apply wp_ret. intros s'' He''. destruct Hp as (P1 & P2 & P3). split_and!; [done..|]. by eapply pK_E.
  Qed.

  Lemma pwp_worker t os bu p s :
    settled p -> Forall fed_ok os -> pK (PG p (length os + bu)) s ->
    pwp (worker C t os) (fun x r s => settled (pg_ph x)) (PG p (length os + bu)) s.
  Proof using Hmax Hdeg.
    revert p s. induction os as [|[o level] os IH]; intros p s Hp Hf HK; cbn [worker]; [by apply wp_ret|].
    apply Forall_cons in Hf as [Hfo Hf]. apply (wp_bind _ _ _ pE_refl). cbn [length Nat.add] in *.
    eapply wp_mono; [|by apply pwp_insert_one]. intros x' [o'|e|z] s' (P1 & P2 & P3); [|done..].
    destruct x' as [p' b']. cbn in P1, P2. subst b'. apply (wp_bind _ _ _ pE_refl). eapply wp_mono; [|by apply IH].
    intros x'' [os'|e|z] s'' Hq; [|done..]. by apply wp_ret.
  Qed.
  Lemma pwp_worker2 t n p bu s :
    settled p -> pK (PG p bu) s -> pwp (worker2 C n t) (fun x r s => settled (pg_ph x)) (PG p bu) s.
  Proof using Hmax Hdeg.
    revert p bu s. induction n as [|n IH]; intros p bu s Hp HK; cbn [worker2]; apply (wp_bind _ _ _ pE_refl); apply wp_act; intros s1 He1;
      pose proof (pK_E _ _ _ HK He1) as HK1; destruct (chan s1) as [|[o level] os] eqn:Ech; cbn [fst snd].
    1,3: exists (PG p bu); (split; [apply PNop|]); intros s2 He2; by apply wp_ret.
    all: exists (PG p (S bu)).
    all: assert (Hfo : fed_ok (o, level)) by (destruct HK1 as ([_ Hch] & _); cbn in Hch; rewrite Ech in Hch; by apply Forall_cons in Hch as [? _]).
    all: assert (HK2 : pK (PG p (S bu)) (set_chan os s1)) by (destruct HK1 as ([J1 Jc] & J2 & J3); unfold room in *; cbn in *; rewrite Ech in *; cbn in *;
        split_and!; [split; [done|by apply Forall_cons in Jc as [_ ?]]|unfold room; cbn; lia|done]).
    all: split; [unfold pGU, pview; rewrite Ech; apply PPop|].
    all: intros s2 He2; pose proof (pK_E _ _ _ HK2 He2) as HK3; apply (wp_bind _ _ _ pE_refl);
      (eapply wp_mono; [|by apply pwp_insert_one]); intros x' [o'|e|z] s' (P1 & P2 & P3); try done.
    { by apply wp_done. }
    destruct x' as [p' b']. cbn in P1, P2. subst b'. apply (wp_bind _ _ _ pE_refl). eapply wp_mono; [|by apply IH].
    intros x'' [os'|e|z] s'' Hq; [|done..]. by apply wp_ret.
  Qed.

  Lemma flush_view io s : pview (fst (wal_flush io s)) = pview s.
  Proof using Hmax Hdeg.
    unfold wal_flush. destruct (batch s) as [|b bs] eqn:Eb; [done|]. destruct (in_order _ _); [|done]. destruct io; [|done].
    unfold pview, log_view. cbn. by rewrite Eb, app_nil_r.
  Qed.
  Lemma ps_flush x io : ps x (flush io) (fun _ => True).
  Proof using Hmax Hdeg. apply ps_act. intros s HK. rewrite flush_view. split; [constructor|done]. Qed.
  Lemma ps_check_open x : ps x check_open (fun _ => True).
  Proof using Hmax Hdeg. by apply ps_read. Qed.

  Lemma pwp_insert io level o s :
    (forall os o', embed_objects C [o] = Val os -> o' ∈ os -> floats_ok (vec_or_nil o')) -> level_ok level -> pK (PG Idle 1) s ->
    pwp (CollModel.insert C 0 io level o) (fun x r s => settled (pg_ph x)) (PG Idle 1) s.
  Proof using Hmax Hdeg.
    intros Hf Hl HK. unfold CollModel.insert. apply (wp_bind _ _ _ pE_refl). eapply wp_mono; [|by apply ps_check_open].
    intros x' [[]|e|z] s1 (-> & HK1 & _ & _); [|done..]. apply (wp_bind _ _ _ pE_refl), wp_done. intros s2 He2.
    pose proof (pK_E _ _ _ HK1 He2) as HK2. destruct (validate_objects C 0 [o]) as [[]|e|z]; [|done..].
    apply (wp_bind _ _ _ pE_refl), wp_done. intros s3 He3. pose proof (pK_E _ _ _ HK2 He3) as HK3.
    destruct (embed_objects C [o]) as [os|e|z]; [|done..]. specialize (Hf os).
    destruct os as [|o' [|? ?]]; [by apply wp_done| |by apply wp_done].
    apply (wp_bind _ _ _ pE_refl). eapply wp_mono; [|apply (pwp_insert_one 0 level o' Idle 0); [done| |done]].
    2:{ split; [|done]. apply Hf; [done|]. by left. }
    intros x' [o''|e|z] s4 (P1 & P2 & P3); [|done..]. apply (wp_bind _ _ _ pE_refl). eapply wp_mono; [|by apply ps_flush].
    intros x'' [[]|e|z] s5 (-> & _); [|done..]. by apply wp_ret.
  Qed.
  Lemma ps_delete x f io id : id_ok id -> ps x (delete_found f io id) (fun _ => True).
  Proof using Hmax Hdeg.
    intros Hid. unfold delete_found. eapply ps_bind; [by apply (ps_read _ _ (fun _ => True))|]. intros [o|] _; [|by apply ps_ret].
    eapply ps_bind; [apply (ps_act _ _ (fun _ => True)); intros s HK; destruct (closed s); (split; [constructor|done])|intros _ _].
    eapply (ps_bind _ _ _ (fun _ => True)); [|intros _ _; apply ps_flush]. unfold hnsw_delete.
    destruct (enc_wop_total (WDelete id)) as [r Hr]. pose proof Hr as Hr'. cbn [enc_wop] in Hr'. rewrite Hr'.
    apply ps_act. intros s HK. cbn [fst snd]. split; [|done]. unfold pview.
    replace (log_view (set_deleted ({[id]} ∪ deleted (wal_append r s)) (wal_append r s))) with (log_view s ++ [r]) by (symmetry; apply (log_append r s)).
    by apply (MDel x id r).
  Qed.
  Lemma ps_search x o k : ps x (semantic_search C 0 o k) (fun _ => True).
  Proof using Hmax Hdeg.
    unfold semantic_search. eapply ps_bind; [apply ps_check_open|intros _ _]. eapply ps_bind; [by apply (ps_lift _ _ (fun _ => True))|].
    intros [|o' [|? ?]] _; [apply ps_pan| |apply ps_pan]. eapply (ps_bind _ _ _ (fun _ => True)).
    - unfold hnsw_search. destruct (k <? 0)%Z; [apply ps_pan|]. eapply ps_bind; [apply ps_read_entry|]. intros [[epid epv] cur] Hep.
      eapply ps_bind; [by apply (ps_lift _ _ (fun _ => True))|intros d _]. eapply ps_bind; [by apply ps_descend|intros e He].
      eapply ps_bind; [apply ps_search_layer; by constructor|intros near Hn].
      eapply ps_bind; [by apply (ps_read _ _ (fun _ => True))|intros dels _]. by apply ps_lift.
    - intros es _. eapply ps_bind; [by apply (ps_read _ _ (fun _ => True))|intros os _].
      eapply ps_bind; [by apply (ps_lift _ _ (fun _ => True))|intros hs _]. by apply ps_ret.
  Qed.
End progs.
