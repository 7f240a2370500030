(** The id counter and the two stores under every call: who may write which
    key.  Holds for all runs, including those that panic. *)
From stdpp Require Import relations sorting.
From Verif Require Import GoBase FloatModel HeapModel ProgModel StateModel WalModel HnswModel StoreModel CollModel CallModel
  ProofBase CodecProofs CodecSpec LogProofs WpProofs StepProofs.
Open Scope nat_scope.

Local Arguments id_key _ : simpl never.
Local Arguments le_put _ _ : simpl never.

(** ** Lists *)
Lemma perm_insert {A} (xs : list A) i x x' : xs !! i = Some x -> <[i := x']> xs ≡ₚ x' :: delete i xs.
Proof.
  revert i. induction xs as [|y xs IH]; intros [|i] E; try done; cbn.
  rewrite (IH i E). apply Permutation_swap.
Qed.
Lemma mjoin_perm {A} (a b : list (list A)) : a ≡ₚ b -> mjoin a ≡ₚ mjoin b.
Proof.
  induction 1 as [|x a b _ IH|x y a|a b c _ IH1 _ IH2]; [done| | |by etrans].
  - change (x ++ mjoin a ≡ₚ x ++ mjoin b). by rewrite IH.
  - change (y ++ (x ++ mjoin a) ≡ₚ x ++ (y ++ mjoin a)). rewrite !app_assoc. f_equiv. apply Permutation_app_comm.
Qed.
Lemma mjoin_cons {A} (x : list A) ls : mjoin (x :: ls) = x ++ mjoin ls.
Proof. done. Qed.
Lemma mjoin_elem {A} (ls : list (list A)) i l y : ls !! i = Some l -> y ∈ l -> y ∈ mjoin ls.
Proof. intros Hi Hy. apply elem_of_list_join. exists l. split; [done|]. by eapply elem_of_list_lookup_2. Qed.

Lemma id_key_inj i j : (i < 2 ^ 64)%N -> (j < 2 ^ 64)%N -> id_key i = id_key j -> i = j.
Proof. intros Hi Hj. apply id_put_inj; done. Qed.

Lemma id_key_u64 i : id_key (u64 i) = id_key i.
Proof. unfold id_key, u64. rewrite <- (le_put_mod 8 i). by rewrite pow256_8. Qed.

(** The stored form of an object is in both stores. *)
Definition stored (C : cparams) (s : st) (o : object) : Prop :=
  exists ob vb, ser_props (cp_json C) (o_props o) = Val ob /\ ser_vec (vec_or_nil o) = Val vb /\
    objs s !! id_key (o_id o) = Some ob /\ vecs s !! id_key (o_id o) = Some vb /\
    (N.of_nat (length ob) <= cp_maxval C)%N /\ (N.of_nat (length vb) <= cp_maxval C)%N.

(** What a thread knows: the ids it got, how many more it may ask for, what
    it took from the channel, the ids whose object is written but whose vector
    is not. *)
Record gh := Gh { g_ids : list N; g_bud : nat; g_pop : list (object * nat); g_fly : list N }.

Definition same_at (k : bytes) (s s' : st) : Prop := objs s' !! k = objs s !! k /\ vecs s' !! k = vecs s !! k.

Definition sE (x : gh) (s s' : st) : Prop :=
  closed s' = closed s /\ (chan s = [] -> chan s' = []) /\ forall id, id ∈ g_ids x -> same_at (id_key id) s s'.
Definition sGU (x : gh) (s : st) (x' : gh) (s' : st) : Prop :=
  closed s' = closed s /\
  ((g_fly x' = g_fly x /\ objs s' = objs s /\ vecs s' = vecs s) \/
   (exists i, i ∈ g_ids x' /\ g_fly x' = i :: g_fly x /\ vecs s' = vecs s /\
      forall k, k <> id_key i -> objs s' !! k = objs s !! k) \/
   (exists i, i ∈ g_ids x' /\ g_fly x = i :: g_fly x' /\ objs s' = objs s /\ is_Some (vecs s' !! id_key i) /\
      forall k, k <> id_key i -> vecs s' !! k = vecs s !! k)) /\
  ((g_ids x' = g_ids x /\ cnt s' = cnt s /\ cfile s' = cfile s /\
     ((chan s' = chan s /\ g_bud x' = g_bud x /\ g_pop x' = g_pop x) \/
      (exists o, chan s = o :: chan s' /\ g_bud x' = S (g_bud x) /\ g_pop x' = g_pop x ++ [o]))) \/
   (g_ids x' = g_ids x ++ [cnt s] /\ g_bud x = S (g_bud x') /\ chan s' = chan s /\ g_pop x' = g_pop x /\
     cnt s' = u64 (cnt s + 1) /\ cfile s' = le_put 8 (u64 (cnt s + 1)) ++ drop 8 (cfile s))).
Definition sB (x : gh) (s : st) : Prop := True.

Definition all_ids (xs : list gh) : list N := mjoin (g_ids <$> xs).
Definition all_fly (xs : list gh) : list N := mjoin (g_fly <$> xs).
Definition all_pop (xs : list gh) : list (object * nat) := mjoin (g_pop <$> xs).
Record sW (c0 : N) (n0 : nat) (s0 : st) (xs : list gh) (s : st) : Prop := SW {
  sw_closed : closed s = false;
  sw_file : open_counter (cfile s) = Val (cnt s);
  sw_nodup : NoDup (all_ids xs);
  sw_range : forall id, id ∈ all_ids xs -> (c0 <= id < cnt s)%N;
  sw_cnt : cnt s = (c0 + N.of_nat (length (all_ids xs)))%N;
  sw_bud : length (all_ids xs) + sum_list (g_bud <$> xs) + length (chan s) = n0;
  sw_max : (c0 + N.of_nat n0 < 2 ^ 64)%N;
  sw_keep : forall k, (forall id, id ∈ all_ids xs -> k <> id_key id) -> same_at k s0 s;
  sw_pop : all_pop xs ++ chan s ≡ₚ chan s0;
  sw_fly : forall k, is_Some (objs s !! k) ->
    is_Some (objs s0 !! k) \/ is_Some (vecs s !! k) \/ exists i, i ∈ all_fly xs /\ k = id_key i;
  sw_vecs : forall k, is_Some (vecs s0 !! k) -> is_Some (vecs s !! k)
}.

Lemma sE_refl x s : sE x s s. Proof. by repeat split. Qed.
Lemma sE_trans x a b c : sE x a b -> sE x b c -> sE x a c.
Proof.
  intros (H1 & D1 & H2) (H3 & D2 & H4). split; [congruence|]. split; [auto|].
  intros id Hid. destruct (H2 id Hid), (H4 id Hid). split; congruence.
Qed.
Lemma sE_at x s s' id : sE x s s' -> id ∈ g_ids x -> same_at (id_key id) s s'.
Proof. intros (_ & _ & H). apply H. Qed.
Lemma sE_sub x x1 s s' : (forall id, id ∈ g_ids x -> id ∈ g_ids x1) -> sE x1 s s' -> sE x s s'.
Proof. intros Hs (H1 & D1 & H2). split; [done|]. split; [done|]. intros id Hid. by apply H2, Hs. Qed.
Lemma same_at_trans k a b c : same_at k a b -> same_at k b c -> same_at k a c.
Proof. intros [] []. split; congruence. Qed.

Lemma open_counter_put c f : (c < 2 ^ 64)%N -> open_counter (le_put 8 c ++ drop 8 f) = Val c.
Proof.
  intros Hc. assert (le_get 8 (le_put 8 c ++ drop 8 f) = Some c) as E by (apply le_get_put_app; by rewrite pow256_8).
  unfold open_counter. rewrite E. by destruct (le_put 8 c ++ drop 8 f).
Qed.

Lemma sum_list_perm (a b : list nat) : a ≡ₚ b -> sum_list a = sum_list b.
Proof. induction 1; cbn; lia. Qed.

Lemma all_ids_at xs i x : xs !! i = Some x ->
  exists rest, all_ids xs ≡ₚ g_ids x ++ rest /\ forall x', all_ids (<[i := x']> xs) ≡ₚ g_ids x' ++ rest.
Proof.
  intros E. exists (all_ids (delete i xs)). unfold all_ids. split.
  - rewrite <- mjoin_cons, <- fmap_cons. apply mjoin_perm. apply fmap_Permutation. by apply delete_Permutation.
  - intros x'. rewrite <- mjoin_cons, <- fmap_cons. apply mjoin_perm. apply fmap_Permutation. by eapply perm_insert.
Qed.
Lemma all_pop_at xs i x : xs !! i = Some x ->
  exists rest, all_pop xs ≡ₚ g_pop x ++ rest /\ forall x', all_pop (<[i := x']> xs) ≡ₚ g_pop x' ++ rest.
Proof.
  intros E. exists (all_pop (delete i xs)). unfold all_pop. split.
  - rewrite <- mjoin_cons, <- fmap_cons. apply mjoin_perm. apply fmap_Permutation. by apply delete_Permutation.
  - intros x'. rewrite <- mjoin_cons, <- fmap_cons. apply mjoin_perm. apply fmap_Permutation. by eapply perm_insert.
Qed.
Lemma all_fly_at xs i x : xs !! i = Some x ->
  exists rest, all_fly xs ≡ₚ g_fly x ++ rest /\ forall x', all_fly (<[i := x']> xs) ≡ₚ g_fly x' ++ rest.
Proof.
  intros E. exists (all_fly (delete i xs)). unfold all_fly. split.
  - rewrite <- mjoin_cons, <- fmap_cons. apply mjoin_perm. apply fmap_Permutation. by apply delete_Permutation.
  - intros x'. rewrite <- mjoin_cons, <- fmap_cons. apply mjoin_perm. apply fmap_Permutation. by eapply perm_insert.
Qed.
Lemma sGU_keep x s x' s' : sGU x s x' s' -> forall k, (forall id, id ∈ g_ids x' -> k <> id_key id) -> same_at k s s'.
Proof.
  intros (_ & [(_ & E1 & E2)|[(i & Hi & _ & E1 & E2)|(i & Hi & _ & E1 & _ & E2)]] & _) k Hk; split; rewrite ?E1; auto; by rewrite E2.
Qed.
Lemma bud_at xs i x : xs !! i = Some x ->
  exists rest, sum_list (g_bud <$> xs) = g_bud x + rest /\ forall x', sum_list (g_bud <$> <[i := x']> xs) = g_bud x' + rest.
Proof.
  intros E. exists (sum_list (g_bud <$> delete i xs)). split.
  - change (g_bud x + sum_list (g_bud <$> delete i xs)) with (sum_list (g_bud <$> x :: delete i xs)).
    apply sum_list_perm, fmap_Permutation. by apply delete_Permutation.
  - intros x'. change (g_bud x' + sum_list (g_bud <$> delete i xs)) with (sum_list (g_bud <$> x' :: delete i xs)).
    apply sum_list_perm, fmap_Permutation. by eapply perm_insert.
Qed.

Lemma sW_step c0 n0 s0 xs s i x x' s' :
  sW c0 n0 s0 xs s -> xs !! i = Some x -> sGU x s x' s' ->
  sW c0 n0 s0 (<[i := x']> xs) s' /\ forall j y, j <> i -> xs !! j = Some y -> sE y s s'.
Proof.
  intros [Hcl Hfile Hnd Hrg Hcnt Hbud Hmax Hkeep Hpop Hfly Hvecs] Hi HG. pose proof (sGU_keep _ _ _ _ HG) as Gkeep.
  destruct HG as (Gcl & Gfly & G).
  destruct (all_fly_at _ _ _ Hi) as (frest & Y1 & Y2). specialize (Y2 x').
  destruct (all_ids_at _ _ _ Hi) as (rest & P1 & P2). specialize (P2 x').
  destruct (all_pop_at _ _ _ Hi) as (prest & R1 & R2). specialize (R2 x').
  destruct (bud_at _ _ _ Hi) as (brest & B1 & B2). specialize (B2 x').
  assert (Hsub : forall id, id ∈ g_ids x -> id ∈ g_ids x') by (destruct G as [[-> _]|[-> _]]; [done|set_solver]).
  assert (Hcs : (cnt s + 1 < 2 ^ 64)%N \/ g_ids x' = g_ids x).
  { destruct G as [[-> _]|(_ & Hb & _)]; [by right|left]. lia. }
  assert (Hids : all_ids (<[i := x']> xs) ≡ₚ all_ids xs /\ cnt s' = cnt s /\ cfile s' = cfile s \/
                 all_ids (<[i := x']> xs) ≡ₚ cnt s :: all_ids xs /\ cnt s' = (cnt s + 1)%N /\
                   open_counter (cfile s') = Val (cnt s')).
  { destruct G as [(E & E1 & E2 & _)|(E & Eb & _ & _ & E1 & E2)].
    - left. rewrite E in P2. by rewrite P1, P2.
    - right. destruct Hcs as [Hcs|Hcs]; [|rewrite Hcs in E; apply (f_equal length) in E; rewrite app_length in E; cbn in E; lia].
      rewrite u64_small in E1, E2 by done. split; [|split; [done|]].
      + rewrite P2, E, P1. rewrite <- app_assoc. cbn. by rewrite Permutation_middle.
      + rewrite E2, E1. by apply open_counter_put. }
  assert (Hnew : forall id, id ∈ all_ids (<[i := x']> xs) <-> id ∈ g_ids x' \/ id ∈ rest).
  { intros id. by rewrite P2, elem_of_app. }
  assert (Hold : forall id, id ∈ all_ids xs <-> id ∈ g_ids x \/ id ∈ rest).
  { intros id. by rewrite P1, elem_of_app. }
  split.
  - assert (Hnd' : NoDup (all_ids (<[i := x']> xs))).
    { destruct Hids as [(-> & _)|(-> & _)]; [done|]. constructor; [|done]. intros Hin%Hrg. lia. }
    split.
    + congruence.
    + destruct Hids as [(_ & -> & ->)|(_ & _ & ?)]; done.
    + done.
    + intros id Hid. destruct Hids as [(E & -> & _)|(E & -> & _)]; rewrite E in Hid.
      * by apply Hrg.
      * apply elem_of_cons in Hid as [->|Hid%Hrg]; [rewrite Hcnt|]; lia.
    + destruct Hids as [(-> & -> & _)|(-> & -> & _)]; [done|]. cbn [length]. lia.
    + rewrite B2. destruct G as [(E & _ & _ & Ho)|(E & Eb & Ec & Ep & _)].
      * assert (Hl : length (all_ids (<[i:=x']> xs)) = length (all_ids xs)) by (rewrite P1, P2, E; done).
        rewrite Hl. destruct Ho as [(-> & -> & _)|(o & Ec & -> & _)]; [lia|]. rewrite Ec in Hbud. cbn [length] in Hbud. lia.
      * assert (Hl : length (all_ids (<[i:=x']> xs)) = S (length (all_ids xs))) by (rewrite P1, P2, E, !app_length; cbn; lia).
        rewrite Hl, Ec. lia.
    + done.
    + intros k Hk. eapply same_at_trans.
      * apply Hkeep. intros id Hid. apply Hk, Hnew. apply Hold in Hid as [Hid|Hid]; auto.
      * apply Gkeep. intros id Hid. apply Hk, Hnew. by left.
    + rewrite R2. destruct G as [(_ & _ & _ & Ho)|(_ & _ & Ec & Ep & _)].
      * destruct Ho as [(-> & _ & ->)|(o & Ec & _ & ->)].
        -- by rewrite <- R1.
        -- rewrite <- Hpop, R1, Ec. rewrite <- !app_assoc. f_equiv. cbn. by rewrite Permutation_middle.
      * rewrite Ep, Ec. by rewrite <- R1.
    + assert (Hfl : forall j, j ∈ all_fly (<[i := x']> xs) <-> j ∈ g_fly x' \/ j ∈ frest) by (intros j; by rewrite Y2, elem_of_app).
      assert (Hfo : forall j, j ∈ all_fly xs <-> j ∈ g_fly x \/ j ∈ frest) by (intros j; by rewrite Y1, elem_of_app).
      intros k Hk. destruct Gfly as [(E0 & E1 & E2)|[(j & Hj & E0 & E1 & E2)|(j & Hj & E0 & E1 & E3 & E2)]].
      * rewrite E1 in Hk. rewrite E2. destruct (Hfly k Hk) as [?|[?|(j & Hj & ->)]]; [by left|by right; left|].
        right; right. exists j. split; [|done]. apply Hfl. rewrite E0. by apply Hfo.
      * destruct (decide (k = id_key j)) as [->|Hne].
        -- right; right. exists j. split; [|done]. apply Hfl. rewrite E0. left. by left.
        -- rewrite E2 in Hk by done. rewrite E1. destruct (Hfly k Hk) as [?|[?|(l & Hl & ->)]]; [by left|by right; left|].
           right; right. exists l. split; [|done]. apply Hfl. rewrite E0. apply Hfo in Hl as [?|?]; [left; by right|by right].
      * rewrite E1 in Hk. destruct (decide (k = id_key j)) as [->|Hne]; [by right; left|].
        rewrite E2 by done. destruct (Hfly k Hk) as [?|[?|(l & Hl & ->)]]; [by left|by right; left|].
        right; right. exists l. split; [|done]. apply Hfl. apply Hfo in Hl. rewrite E0 in Hl. set_solver.
    + intros k Hk. apply Hvecs in Hk. destruct Gfly as [(E0 & E1 & E2)|[(j & Hj & E0 & E1 & E2)|(j & Hj & E0 & E1 & E3 & E2)]].
      * by rewrite E2.
      * by rewrite E1.
      * destruct (decide (k = id_key j)) as [->|Hne]; [done|]. by rewrite E2.
  - intros j y Hne Hj. split; [done|]. split.
    { intros E0. destruct G as [(_ & _ & _ & [(-> & _)|(o & Ec & _)])|(_ & _ & -> & _)]; [done| |done]. by rewrite E0 in Ec. }
    intros id Hid. apply Gkeep. intros id' Hid' Ek.
    assert (id ∈ rest) as Hr.
    { assert (Hj' : delete i xs !! (if decide (j < i) then j else pred j) = Some y).
      { destruct (decide (j < i)); [by rewrite lookup_delete_lt|]. rewrite lookup_delete_ge by lia.
        replace (S (pred j)) with j by lia. done. }
      assert (P3 : all_ids xs ≡ₚ g_ids x ++ all_ids (delete i xs)).
      { unfold all_ids. rewrite <- mjoin_cons, <- fmap_cons. apply mjoin_perm, fmap_Permutation. by apply delete_Permutation. }
      assert (Hpr : rest ≡ₚ all_ids (delete i xs)). { apply (Permutation_app_inv_l (g_ids x)). by rewrite <- P1, P3. }
      rewrite Hpr. eapply mjoin_elem; [|exact Hid]. rewrite list_lookup_fmap, Hj'. done. }
    assert (Hl : (id < cnt s)%N) by (apply Hrg, Hold; by right).
    assert (Hl' : (id' <= cnt s)%N).
    { destruct G as [(E & _)|(E & _)]; rewrite E in Hid'.
      - assert (id' < cnt s)%N; [|lia]. apply Hrg, Hold. by left.
      - apply elem_of_app in Hid' as [Hid'|Hid'%elem_of_list_singleton]; [|lia].
        assert (id' < cnt s)%N; [|lia]. apply Hrg, Hold. by left. }
    apply id_key_inj in Ek; [|lia..]. subst id'.
    assert (Hnd' : NoDup (all_ids (<[i := x']> xs))).
    { destruct Hids as [(-> & _)|(-> & _)]; [done|]. constructor; [|done]. intros Hin%Hrg. lia. }
    rewrite P2 in Hnd'. apply NoDup_app in Hnd' as (_ & Hd & _). by eapply Hd.
Qed.

(** ** Programs *)
Notation swp := (wp sE sGU sB).

(** A program that leaves the stores and the counter alone. *)
Lemma swp_steps {A} (p : prog st A) (Q : gh -> out A -> st -> Prop) x s :
  steps keep_store p -> (forall r s', sE x s s' -> Q x r s') -> swp p Q x s.
Proof.
  revert s. induction p as [r|f IH] using prog_ind'; intros s Hp HQ; cbn [wp].
  - intros s1 He. by apply HQ.
  - intros s1 He. cbn [steps] in Hp. specialize (Hp s1). destruct (f s1) as [[s2 p']|] eqn:Ef; [|done].
    destruct Hp as [(K1&K2&K3&K4&K5&K6&K7&K8) Hp]. exists x. split.
    + split; [done|]. split; [by left|]. left. split_and!; try done. left. done.
    + eapply IH; [exact Ef|exact Hp|]. intros r s' He'. apply HQ. eapply sE_trans; [exact He|]. eapply sE_trans; [|exact He'].
      split; [done|]. split; [congruence|]. intros id _. split; congruence.
Qed.

Section progs.
  Context (C : cparams).
  Notation J := (cp_json C).

  (** The vector's record is within the store's limit. *)
  Definition fits (o : object) : Prop := (N.of_nat (4 + 4 * length (vec_or_nil o)) <= cp_maxval C)%N.
  Lemma ser_vec_length v b : ser_vec v = Val b -> length b = 4 + 4 * length v.
  Proof. rewrite ser_vec_eq. intros <-%Val_inj. by rewrite app_length, le_put_length, le_floats_length. Qed.

  Lemma swp_put_object o x s :
    closed s = false -> o_id o ∈ g_ids x ->
    swp (put_object J (cp_maxval C) o)
      (fun x' r s' => (g_ids x' = g_ids x /\ g_bud x' = g_bud x /\ g_pop x' = g_pop x /\ (fits o -> g_fly x' = g_fly x)) /\
         closed s' = closed s /\ (chan s = [] -> chan s' = []) /\
         (forall id, id ∈ g_ids x -> id_key id <> id_key (o_id o) -> same_at (id_key id) s s') /\
         (r = Val tt -> stored C s' o)) x s.
  Proof.
    intros Hcl Hid. unfold put_object.
    apply (wp_bind _ _ _ sE_refl), wp_done. intros s0 He0.
    destruct (ser_props J (o_props o)) as [ob|e|z] eqn:Eob.
    2,3: split; [done|]; split; [apply He0|]; split; [apply He0|]; split; [intros id Hi _; by apply He0|done].
    apply (wp_bind _ _ _ sE_refl), wp_done. intros s0' He0'.
    destruct (ser_vec (vec_or_nil o)) as [vb|e|z] eqn:Evb.
    2,3: assert (He : sE x s s0') by (by eapply sE_trans);
         split; [done|]; split; [apply He|]; split; [apply He|]; split; [intros id Hi _; by apply He|done].
    assert (He0s : sE x s s0') by (by eapply sE_trans). clear s0 He0 He0'.
    apply (wp_bind _ _ _ sE_refl), wp_act. intros s1 He1.
    assert (Hes1 : sE x s s1) by (by eapply sE_trans). unfold bc_put.
    destruct (N.ltb_spec (cp_maxval C) (N.of_nat (length ob))) as [Hlt|Hlt]; cbn [fst snd].
    { exists x. split.
      { split; [done|]. split; [by left|]. left. split_and!; try done. by left. }
      intros s2 He2. assert (He : sE x s s2) by (by eapply sE_trans).
      split; [done|]. split; [apply He|]. split; [apply He|]. split; [intros id Hi _; by apply He|done]. }
    assert (Hcl1 : closed s1 = false) by (by rewrite (proj1 Hes1)). rewrite Hcl1. cbn [fst snd].
    set (x1 := Gh (g_ids x) (g_bud x) (g_pop x) (o_id o :: g_fly x)). exists x1. split.
    { split; [done|]. split.
      - right; left. exists (o_id o). split_and!; try done. intros k Hk. cbn. by rewrite lookup_insert_ne.
      - left. split_and!; try done. by left. }
    intros s2 He2. apply wp_act. intros s3 He3.
    assert (He23 : sE x1 (set_objs (<[id_key (o_id o):=ob]> (objs s1)) s1) s3) by (by eapply sE_trans).
    assert (Hk1 : forall id, id ∈ g_ids x -> id_key id <> id_key (o_id o) -> same_at (id_key id) s s3).
    { intros id Hi Hne. destruct (sE_at _ _ _ _ Hes1 Hi) as [a1 a2]. destruct (sE_at x1 _ _ _ He23 Hi) as [b1 b2]. cbn in b1, b2.
      rewrite lookup_insert_ne in b1 by done. split; congruence. }
    assert (Hob : objs s3 !! id_key (o_id o) = Some ob).
    { destruct (sE_at x1 _ _ _ He23 Hid) as [b1 b2]. cbn in b1. by rewrite lookup_insert in b1. }
    assert (Hcl3 : closed s3 = false) by (by rewrite (proj1 He23)). rewrite Hcl3.
    destruct (N.ltb_spec (cp_maxval C) (N.of_nat (length vb))) as [Hlv|Hlv]; cbn [fst snd].
    - exists x1. split.
      { split; [done|]. split; [by left|]. left. split_and!; try done. by left. }
      intros s4 He4. split; [|split; [|split; [|split; [|done]]]].
      + split_and!; try done. intros Hfit. exfalso. unfold fits in Hfit. apply ser_vec_length in Evb. rewrite Evb in Hlv. lia.
      + rewrite (proj1 He4), (proj1 He23). apply Hes1.
      + intros H0. apply He4, He23. cbn. by apply Hes1.
      + intros id Hi Hne. eapply same_at_trans; [by apply Hk1|by apply He4].
    - exists x. split.
      { split; [done|]. split.
        - right; right. exists (o_id o). split_and!; try done; [cbn; rewrite lookup_insert; by eexists|].
          intros k Hk. cbn. by rewrite lookup_insert_ne.
        - left. split_and!; try done. by left. }
      intros s4 He4. split; [done|]. split; [|split; [|split]].
      + rewrite (proj1 He4). cbn. rewrite (proj1 He23). apply Hes1.
      + intros H0. apply He4. cbn. apply He23. cbn. by apply Hes1.
      + intros id Hi Hne. eapply same_at_trans; [by apply Hk1|].
        destruct (sE_at _ _ _ _ He4 Hi) as [b1 b2]. cbn in b1, b2. rewrite lookup_insert_ne in b2 by done. split; congruence.
      + intros _. destruct (sE_at _ _ _ _ He4 Hid) as [b1 b2]. cbn in b1, b2. rewrite lookup_insert in b2.
        exists ob, vb. split_and!; try done; congruence.
  Qed.

  Lemma swp_fetch x s b :
    closed s = false -> g_bud x = S b ->
    swp fetch_and_inc
      (fun x' r s' => exists id, r = Val id /\ g_ids x' = g_ids x ++ [id] /\ g_bud x' = b /\ g_pop x' = g_pop x /\
        g_fly x' = g_fly x /\ sE x s s') x s.
  Proof.
    intros Hcl Hb. unfold fetch_and_inc. apply wp_act. intros s1 He. 
    rewrite (proj1 He), Hcl. cbn [fst snd]. exists (Gh (g_ids x ++ [cnt s1]) b (g_pop x) (g_fly x)). split.
    - split; [done|]. split; [by left|]. right. by split_and!.
    - intros s3 He3. exists (cnt s1). split_and!; try done.
      eapply sE_trans; [exact He|]. assert (He3' : sE (Gh (g_ids x ++ [cnt s1]) b (g_pop x) (g_fly x)) s1 s3) by exact He3.
      eapply sE_sub; [|exact He3']. cbn. set_solver.
  Qed.

  (** collection_insert.go:147-160 *)
  Definition ins_post (o : object) (x : gh) (s : st) (b : nat) (x' : gh) (r : out object) (s' : st) : Prop :=
    exists id, g_ids x' = g_ids x ++ [id] /\ g_bud x' = b /\ g_pop x' = g_pop x /\ (fits o -> g_fly x' = g_fly x) /\
      (NoDup (g_ids x') -> (forall i, i ∈ g_ids x' -> (i < 2 ^ 64)%N) -> sE x s s') /\ closed s' = closed s /\
      (forall o', r = Val o' -> o' = Object id (o_props o) (o_vec o) /\ stored C s' o').
  Lemma swp_insert_one tid level o x s b :
    closed s = false -> g_bud x = S b ->
    swp (insert_one C tid level o) (ins_post o x s b) x s.
  Proof.
    intros Hcl Hb. unfold insert_one. apply (wp_bind _ _ _ sE_refl).
    eapply wp_mono; [|by eapply swp_fetch]. cbn beta. intros x1 r1 s1 (id & -> & Hids & Hb1 & Hp1 & Hf1 & He1).
    apply (wp_bind _ _ _ sE_refl).
    eapply wp_mono; [|apply (swp_put_object (Object id (o_props o) (o_vec o))); [by rewrite (proj1 He1)|rewrite Hids; set_solver]].
    cbn beta. intros x2 r2 s2 ((Hids2 & Hb2 & Hp2 & Hf2) & Hcl2 & Hch2 & Hk2 & Hst2). cbn [o_id] in *.
    rewrite <- Hids2 in Hids, Hk2. rewrite <- Hb2 in Hb1. rewrite <- Hp2 in Hp1.
    assert (Hfl : fits o -> g_fly x2 = g_fly x) by (intros Hfit; rewrite (Hf2 Hfit); done). clear Hids2 Hb2 Hp2 Hf1 Hf2.
    assert (HE : NoDup (g_ids x2) -> (forall i, i ∈ g_ids x2 -> (i < 2 ^ 64)%N) -> sE x s s2).
    { intros Hnd Hlt. eapply sE_trans; [exact He1|]. split; [done|]. split; [done|]. intros i Hi. apply Hk2; [rewrite Hids; set_solver|].
      intros Ek. apply id_key_inj in Ek; [|apply Hlt; rewrite Hids; set_solver..]. subst i.
      rewrite Hids in Hnd. apply NoDup_app in Hnd as (_ & Hd & _). apply (Hd id Hi). set_solver. }
    assert (Hc2 : closed s2 = closed s) by (rewrite Hcl2; apply He1).
    destruct r2 as [[]|e|z].
    2,3: exists id; split_and!; done.
    specialize (Hst2 eq_refl). apply (wp_bind _ _ _ sE_refl). apply swp_steps; [apply insert_keep_store|].
    intros r3 s3 He3.
    assert (Hst3 : stored C s3 (Object id (o_props o) (o_vec o))).
    { destruct Hst2 as (ob & vb & ? & ? & ? & ? & ? & ?). exists ob, vb. cbn [o_id] in *.
      destruct (sE_at _ _ _ id He3) as [-> ->]; [rewrite Hids; set_solver|]. by split_and!. }
    assert (HE3 : NoDup (g_ids x2) -> (forall i, i ∈ g_ids x2 -> (i < 2 ^ 64)%N) -> sE x s s3).
    { intros Hnd Hlt. eapply sE_trans; [by apply HE|]. eapply sE_sub; [|exact He3]. rewrite Hids. set_solver. }
    assert (Hc3 : closed s3 = closed s) by (rewrite (proj1 He3); done).
    destruct r3 as [[]|e|z].
    2,3: exists id; split_and!; done.
    apply wp_ret. intros s4 He4. exists id. split_and!; try done.
    - intros Hnd Hlt. eapply sE_trans; [by apply HE3|]. eapply sE_sub; [|exact He4]. rewrite Hids. set_solver.
    - rewrite (proj1 He4). done.
    - intros o' [= <-]. split; [done|]. destruct Hst3 as (ob & vb & ? & ? & ? & ? & ? & ?). exists ob, vb. cbn [o_id] in *.
      destruct (sE_at _ _ _ id He4) as [-> ->]; [rewrite Hids; set_solver|]. by split_and!.
  Qed.

  Definition payload (o : object) : props * option fvec := (o_props o, o_vec o).

  Lemma stored_E x s s' o : sE x s s' -> o_id o ∈ g_ids x -> stored C s o -> stored C s' o.
  Proof.
    intros He Hi (ob & vb & ? & ? & ? & ? & ? & ?). exists ob, vb.
    destruct (sE_at _ _ _ _ He Hi) as [-> ->]. by split_and!.
  Qed.

  (** The ids are different and fit 64 bits (known globally, not by a thread). *)
  Definition good_ids (l : list N) : Prop := NoDup l /\ forall i, i ∈ l -> (i < 2 ^ 64)%N.
  Lemma good_ids_app a b : good_ids (a ++ b) -> good_ids a.
  Proof. intros [Hn Hl]. split; [by apply NoDup_app in Hn as (? & _)|]. intros i Hi. apply Hl. set_solver. Qed.

  Definition wk_post (os : list (object * nat)) (x : gh) (s : st) (x' : gh) (r : out (list object)) (s' : st) : Prop :=
    exists ids, g_ids x' = g_ids x ++ ids /\ length ids + g_bud x' = g_bud x /\ g_pop x' = g_pop x /\
      (Forall fits os.*1 -> g_fly x' = g_fly x) /\
      closed s' = closed s /\ (good_ids (g_ids x') -> sE x s s') /\
      (forall os', r = Val os' -> ids = o_id <$> os' /\ payload <$> os' = payload <$> os.*1 /\
        (good_ids (g_ids x') -> Forall (stored C s') os')).

  Lemma swp_worker tid os : forall x s,
    closed s = false -> length os <= g_bud x ->
    swp (worker C tid os) (wk_post os x s) x s.
  Proof.
    induction os as [|[o level] os IH]; intros x s Hcl Hb; cbn [worker length] in *.
    - apply wp_ret. intros s1 He. exists []. rewrite app_nil_r. split_and!; try done; [apply He|].
      intros os' [= <-]. split_and!; [done..|]. constructor.
    - destruct (g_bud x) as [|b] eqn:Eb; [lia|].
      apply (wp_bind _ _ _ sE_refl). eapply wp_mono; [|by apply swp_insert_one].
      cbn beta. intros x1 r1 s1 (id & Hids & Hb1 & Hp1 & Hf1 & HE1 & Hc1 & Hr1).
      assert (HE1' : good_ids (g_ids x1) -> sE x s s1) by (intros []; by apply HE1). clear HE1.
      destruct r1 as [o1|e|z].
      2,3: exists [id]; split_and!; try done; [cbn; lia|]; intros Hff; apply Forall_cons in Hff as [Hf0 _]; by apply Hf1.
      destruct (Hr1 o1 eq_refl) as [-> Hst1]. clear Hr1.
      apply (wp_bind _ _ _ sE_refl). eapply wp_mono; [|apply IH; [by rewrite Hc1|lia]].
      cbn beta. intros x2 r2 s2 (ids & Hids2 & Hb2 & Hp2 & Hf2 & Hc2 & HE2 & Hr2).
      assert (Hids' : g_ids x2 = g_ids x ++ id :: ids) by (rewrite Hids2, Hids, <- app_assoc; done).
      assert (Hff : Forall fits ((o, level) :: os).*1 -> g_fly x2 = g_fly x).
      { intros Hff. apply Forall_cons in Hff as [Hf0 Hff]. rewrite Hf2 by done. by apply Hf1. }
      assert (HE : good_ids (g_ids x2) -> sE x s s2).
      { intros Hg. eapply sE_trans; [apply HE1'; rewrite Hids2 in Hg; by eapply good_ids_app|].
        eapply sE_sub; [|by apply HE2]. rewrite Hids. set_solver. }
      destruct r2 as [os2|e|z].
      2,3: exists (id :: ids); split_and!; try done; [cbn; lia|congruence|congruence].
      destruct (Hr2 os2 eq_refl) as (-> & Hpay & Hst2).
      apply wp_ret. intros s3 He3. exists (id :: (o_id <$> os2)). split_and!; try done.
      + cbn; lia.
      + congruence.
      + rewrite (proj1 He3). congruence.
      + intros Hg. eapply sE_trans; [by apply HE|]. eapply sE_sub; [|exact He3]. rewrite Hids'. set_solver.
      + intros os' [= <-]. split_and!; [done|cbn; by rewrite Hpay|]. intros Hg. constructor.
        * eapply stored_E; [exact He3|cbn; rewrite Hids'; set_solver|]. eapply stored_E; [by apply HE2|cbn; rewrite Hids; set_solver|done].
        * apply Forall_forall. intros o' Ho'. eapply stored_E; [exact He3| |].
          -- rewrite Hids'. apply elem_of_app. right. apply elem_of_cons. right. by apply elem_of_list_fmap_1.
          -- specialize (Hst2 Hg). rewrite Forall_forall in Hst2. by apply Hst2.
  Qed.

  Definition wk2_post (x : gh) (s : st) (x' : gh) (r : out (list object)) (s' : st) : Prop :=
    exists ids pops, g_ids x' = g_ids x ++ ids /\ g_pop x' = g_pop x ++ pops /\
      length ids + g_bud x' = g_bud x + length pops /\ (Forall fits pops.*1 -> g_fly x' = g_fly x) /\
      closed s' = closed s /\ (good_ids (g_ids x') -> sE x s s') /\
      (forall os', r = Val os' -> ids = o_id <$> os' /\ payload <$> os' = payload <$> pops.*1 /\ chan s' = [] /\
        (good_ids (g_ids x') -> Forall (stored C s') os')).

  Lemma swp_worker2 tid n : forall x s,
    closed s = false -> swp (worker2 C n tid) (wk2_post x s) x s.
  Proof.
    induction n as [n IH] using lt_wf_ind; intros x s Hcl.
    destruct n as [|n]; cbn [worker2].
    all: apply (wp_bind _ _ _ sE_refl), wp_act; intros s1 He1; destruct (chan s1) as [|[o level] ch] eqn:Ech; cbn [fst snd].
    1,3: exists x; split; [split; [done|]; split; [by left|]; left; split_and!; try done; by left|];
      intros s2 He2; apply wp_ret; intros s3 He3; exists [], []; rewrite !app_nil_r;
      assert (Hes3 : sE x s s3) by (eapply sE_trans; [exact He1|]; by eapply sE_trans);
      split_and!; try done; [apply Hes3|];
      intros os' [= <-]; split_and!; [done|done| |intros _; by constructor]; apply He3, He2; by rewrite Ech.
    all: exists (Gh (g_ids x) (S (g_bud x)) (g_pop x ++ [(o, level)]) (g_fly x)); set (x1 := Gh _ _ _ _);
      (split; [split; [done|]; split; [by left|]; left; split_and!; try done; right; by exists (o, level)|]);
      intros s2 He2;
      assert (Hes2 : sE x s s2) by (eapply sE_trans; [exact He1|]; apply (sE_sub x x1) in He2; [|done];
         split; [apply He2|]; split; [by rewrite Ech|apply He2]);
      apply (wp_bind _ _ _ sE_refl); eapply wp_mono; [|apply (swp_insert_one tid level o x1 s2 (g_bud x)); [by rewrite (proj1 Hes2)|done]];
      cbn beta; intros x3 r3 s3 (id & Hids & Hb3 & Hp3 & Hf3 & HE3 & Hc3 & Hr3); cbn [g_ids g_pop g_fly x1] in Hids, Hp3, Hf3;
      assert (Hf3' : forall l, Forall fits ((o, level) :: l).*1 -> g_fly x3 = g_fly x) by (intros l Hff; apply Forall_cons in Hff as [Hf0 _]; by apply Hf3);
      assert (HE3' : good_ids (g_ids x3) -> sE x s s3) by (intros []; eapply sE_trans; [exact Hes2|]; by apply (HE3));
      assert (Hcs3 : closed s3 = closed s) by (rewrite Hc3; apply Hes2).
    - destruct r3 as [o3|e|z]; [|exists [id], [(o, level)]; split_and!; try done; [cbn; lia|by apply Hf3']..].
      apply wp_done. intros s4 He4. exists [id], [(o, level)]. split_and!; try done.
      + cbn; lia.
      + apply Hf3'.
      + rewrite (proj1 He4); done.
      + intros Hg. eapply sE_trans; [by apply HE3'|]. eapply sE_sub; [|exact He4]. rewrite Hids. set_solver.
    - destruct r3 as [o3|e|z]; [|exists [id], [(o, level)]; split_and!; try done; [cbn; lia|by apply Hf3']..].
      destruct (Hr3 o3 eq_refl) as [-> Hst3]. clear Hr3.
      apply (wp_bind _ _ _ sE_refl). eapply wp_mono; [|apply IH; [lia|by rewrite Hcs3]].
      cbn beta. intros x4 r4 s4 (ids & pops & Hids4 & Hpop4 & Hb4 & Hf4 & Hc4 & HE4 & Hr4).
      assert (Hff : Forall fits ((o, level) :: pops).*1 -> g_fly x4 = g_fly x).
      { intros Hff. pose proof Hff as Hff'. apply Forall_cons in Hff as [_ Hff]. rewrite Hf4 by done. by eapply Hf3'. }
      assert (Hids' : g_ids x4 = g_ids x ++ id :: ids) by (rewrite Hids4, Hids, <- app_assoc; done).
      assert (Hpop' : g_pop x4 = g_pop x ++ (o, level) :: pops) by (rewrite Hpop4, Hp3, <- app_assoc; done).
      assert (HE : good_ids (g_ids x4) -> sE x s s4).
      { intros Hg. eapply sE_trans; [apply HE3'; rewrite Hids4 in Hg; by eapply good_ids_app|].
        eapply sE_sub; [|by apply HE4]. rewrite Hids. set_solver. }
      destruct r4 as [os4|e|z].
      2,3: exists (id :: ids), ((o, level) :: pops); split_and!; try done; [cbn; lia|congruence].
      destruct (Hr4 os4 eq_refl) as (-> & Hpay & Hch & Hst4).
      apply wp_ret. intros s5 He5. exists (id :: (o_id <$> os4)), ((o, level) :: pops). split_and!; try done.
      + cbn; lia.
      + rewrite (proj1 He5). congruence.
      + intros Hg. eapply sE_trans; [by apply HE|]. eapply sE_sub; [|exact He5]. rewrite Hids'. set_solver.
      + intros os' [= <-]. split_and!; [done|cbn; by rewrite Hpay|by apply He5|]. intros Hg. constructor.
        * eapply stored_E; [exact He5|cbn; rewrite Hids'; set_solver|]. eapply stored_E; [by apply HE4|cbn; rewrite Hids; set_solver|done].
        * apply Forall_forall. intros o' Ho'. eapply stored_E; [exact He5| |].
          -- rewrite Hids'. apply elem_of_app. right. apply elem_of_cons. right. by apply elem_of_list_fmap_1.
          -- specialize (Hst4 Hg). rewrite Forall_forall in Hst4. by apply Hst4.
  Qed.

  Lemma flush_step io x s1 : sGU x s1 x (fst (wal_flush io s1)).
  Proof.
    assert (H : closed (fst (wal_flush io s1)) = closed s1 /\ objs (fst (wal_flush io s1)) = objs s1 /\
      vecs (fst (wal_flush io s1)) = vecs s1 /\ cnt (fst (wal_flush io s1)) = cnt s1 /\
      cfile (fst (wal_flush io s1)) = cfile s1 /\ chan (fst (wal_flush io s1)) = chan s1).
    { unfold wal_flush. destruct (batch s1); [done|]. destruct (in_order _ _), io; done. }
    destruct H as (H1&H2&H3&H4&H5&H6). split; [done|]. split; [by left|].
    left. split_and!; try done. by left.
  Qed.
  Lemma GU_same_E x s s' : sGU x s x s' -> objs s' = objs s -> vecs s' = vecs s -> chan s' = chan s -> sE x s s'.
  Proof. intros (H & _) E1 E2 E3. split; [done|]. split; [congruence|]. intros id _. split; congruence. Qed.
  Lemma flush_store io s1 :
    closed (fst (wal_flush io s1)) = closed s1 /\ objs (fst (wal_flush io s1)) = objs s1 /\
    vecs (fst (wal_flush io s1)) = vecs s1 /\ cnt (fst (wal_flush io s1)) = cnt s1 /\
    cfile (fst (wal_flush io s1)) = cfile s1 /\ chan (fst (wal_flush io s1)) = chan s1.
  Proof. unfold wal_flush. destruct (batch s1); [done|]. destruct (in_order _ _), io; done. Qed.

  Lemma swp_flush io (Q : gh -> out unit -> st -> Prop) x s :
    (forall r s', sE x s s' -> Q x r s') -> swp (flush io) Q x s.
  Proof.
    intros HQ. apply wp_act. intros s1 He. exists x. split; [apply flush_step|]. intros s3 He3.
    destruct (flush_store io s1) as (F1&F2&F3&F4&F5&F6). apply HQ. eapply sE_trans; [exact He|].
    eapply sE_trans; [|exact He3]. split; [done|]. split; [congruence|]. intros id _. split; congruence.
  Qed.

  (** collection_insert.go:9-34 *)
  Lemma swp_insert tid io level o x s :
    g_bud x = 1 -> closed s = false ->
    swp (CollModel.insert C tid io level o)
      (fun x' r s' => (forall o', r = Val o' -> good_ids (g_ids x') ->
         g_ids x' = g_ids x ++ [o_id o'] /\ stored C s' o' /\
         exists o1, embed_objects C [o] = Val [o1] /\ payload o' = payload o1) /\
         ((forall os, embed_objects C [o] = Val os -> Forall fits os) -> g_fly x' = g_fly x)) x s.
  Proof.
    intros Hb Hcl. unfold CollModel.insert.
    apply (wp_bind _ _ _ sE_refl). apply swp_steps; [by apply steps_act|]. intros r1 s1 He1.
    destruct r1 as [[]|e|z]; [|done..].
    apply (wp_bind _ _ _ sE_refl). apply wp_done. intros s2 He2.
    destruct (validate_objects C 0 [o]) as [[]|e|z]; [|done..].
    apply (wp_bind _ _ _ sE_refl). apply wp_done. intros s3 He3.
    destruct (embed_objects C [o]) as [os|e|z] eqn:Ee; [|done..].
    assert (He : sE x s s3) by (eapply sE_trans; [exact He1|]; by eapply sE_trans).
    destruct os as [|o1 [|? ?]]; [done| |done].
    apply (wp_bind _ _ _ sE_refl). eapply wp_mono; [|apply (swp_insert_one tid level o1 x s3 0); [by rewrite (proj1 He)|done]].
    cbn beta. intros x4 r4 s4 (id & Hids & Hb4 & Hp4 & Hf4 & HE4 & Hc4 & Hr4).
    assert (Hff : (forall os, Val [o1] = Val os -> Forall fits os) -> g_fly x4 = g_fly x) by (intros Hff; specialize (Hff [o1] eq_refl); apply Forall_cons in Hff as [Hff _]; by apply Hf4).
    destruct r4 as [o4|e|z]; [|done..]. destruct (Hr4 o4 eq_refl) as [-> Hst].
    apply (wp_bind _ _ _ sE_refl). apply swp_flush. intros r5 s5 He5. destruct r5 as [[]|e|z]; [|done..].
    apply wp_ret. intros s6 He6. split; [|done]. intros o' [= <-] Hg. cbn [o_id o_props o_vec]. split_and!; try done.
    - eapply stored_E; [exact He6|rewrite Hids; cbn; set_solver|]. eapply stored_E; [exact He5|rewrite Hids; cbn; set_solver|done].
    - by exists o1.
  Qed.
End progs.
