(** What one event of a history does to the counter and the stores. *)
From stdpp Require Import relations sorting.
From Verif Require Import GoBase FloatModel HeapModel ProgModel StateModel WalModel HnswModel StoreModel CollModel CallModel
  ProofBase CodecProofs CodecSpec LogProofs WpProofs StepProofs StoreProofs.
Open Scope nat_scope.
Local Arguments id_key _ : simpl never.
Local Arguments le_put _ _ : simpl never.

(** ** Machines *)
Lemma exec_rtc {S A} (p : prog S A) s s' r : exec p s = Some (s', r) -> rtc mstep (s, [p]) (s', [Done r]).
Proof.
  revert s. induction p as [r0|f IH] using prog_ind'; intros s; cbn [exec].
  - intros [-> ->]%Some_pair_inj. done.
  - destruct (f s) as [[s1 p']|] eqn:E; [|done]. intros Hx. eapply rtc_l; [|by eapply IH].
    change [p'] with (<[0 := p']> [Step f]). by econstructor.
Qed.

(** ** Chunks *)
Lemma chunk_join {A} (w : nat) (l : list A) : 0 < w -> mjoin ((fun i => chunk w i l) <$> seq 0 w) = l.
Proof.
  intros Hw. set (n := length l / w).
  assert (Hdm : length l = w * n + length l mod w) by (apply Nat.div_mod; lia).
  assert (H : forall j, j < w -> mjoin ((fun i => chunk w i l) <$> seq 0 j) = take (j * n) l).
  { induction j as [|j IH]; intros Hj; [done|].
    rewrite seq_S, fmap_app. cbn [fmap list_fmap].
    assert (Ej : mjoin (((fun i => chunk w i l) <$> seq 0 j) ++ [chunk w (0 + j) l]) =
                 mjoin ((fun i => chunk w i l) <$> seq 0 j) ++ chunk w j l).
    { generalize ((fun i => chunk w i l) <$> seq 0 j) as ls. clear. intros ls. induction ls as [|x ls IH]; cbn; [by rewrite app_nil_r|].
      change (mjoin ls) with (mjoin ls) in IH. rewrite <- app_assoc. f_equal. exact IH. }
    rewrite Ej, IH by lia. unfold chunk. fold n.
    replace (j =? w - 1) with false by (symmetry; apply Nat.eqb_neq; lia).
    replace (j * n + n + 0 - j * n) with n by lia.
    rewrite take_take_drop. f_equal. lia. }
  destruct w as [|w]; [lia|]. rewrite seq_S, fmap_app. cbn [fmap list_fmap].
  assert (Ej : mjoin (((fun i => chunk (S w) i l) <$> seq 0 w) ++ [chunk (S w) (0 + w) l]) =
               mjoin ((fun i => chunk (S w) i l) <$> seq 0 w) ++ chunk (S w) w l).
  { generalize ((fun i => chunk (S w) i l) <$> seq 0 w) as ls. clear. intros ls. induction ls as [|x ls IH]; cbn; [by rewrite app_nil_r|].
    rewrite <- app_assoc. f_equal. exact IH. }
  rewrite Ej, H by lia. unfold chunk. fold n.
  replace (w =? S w - 1) with true by (symmetry; apply Nat.eqb_eq; lia).
  rewrite (take_ge (drop (w * n) l)) by (rewrite drop_length; lia).
  apply take_drop.
Qed.
Lemma mjoin_length {A} (ls : list (list A)) : length (mjoin ls) = sum_list (length <$> ls).
Proof. induction ls as [|l ls IH]; [done|]. rewrite mjoin_cons, app_length, IH. done. Qed.
Lemma chunk_length_sum {A} w (l : list A) : sum_list ((fun i => length (chunk w i l)) <$> seq 0 w) <= length l.
Proof.
  destruct w as [|w]; [cbn; lia|].
  replace (length l) with (length (mjoin ((fun i => chunk (S w) i l) <$> seq 0 (S w)))) by (rewrite chunk_join by lia; done).
  rewrite mjoin_length, <- list_fmap_compose. done.
Qed.

(** ** Summaries *)
Record wrote (n : nat) (ids : list N) (s s' : st) : Prop := Wrote {
  wr_closed : closed s' = closed s;
  wr_file : open_counter (cfile s') = Val (cnt s');
  wr_nodup : NoDup ids;
  wr_range : forall id, id ∈ ids -> (cnt s <= id < cnt s')%N;
  wr_cnt : (cnt s <= cnt s' <= cnt s + N.of_nat n)%N;
  wr_keep : forall k, (forall id, id ∈ ids -> k <> id_key id) -> same_at k s s'
}.
Lemma sW_wrote n0 s xs s' : closed s = false -> sW (cnt s) n0 s xs s' -> wrote n0 (all_ids xs) s s'.
Proof.
  intros Hcl [H1 H2 H3 H4 H5 H6 H7 H8 H9 _ _]. split; try done; [congruence|]. rewrite H5. lia.
Qed.
(** Every object written since has its vector. *)
Definition paired (s s' : st) : Prop :=
  (forall k, is_Some (objs s' !! k) -> is_Some (objs s !! k) \/ is_Some (vecs s' !! k)) /\
  (forall k, is_Some (vecs s !! k) -> is_Some (vecs s' !! k)).
Lemma sW_paired c n0 s xs s' : sW c n0 s xs s' -> all_fly xs = [] -> paired s s'.
Proof.
  intros HW Hf. split; [|by apply HW]. intros k Hk. destruct (sw_fly _ _ _ _ _ HW k Hk) as [?|[?|(i & Hi & _)]]; [by left|by right|].
  rewrite Hf in Hi. by apply elem_of_nil in Hi.
Qed.
Lemma all_fly_nil xs : (forall i x, xs !! i = Some x -> g_fly x = []) -> all_fly xs = [].
Proof.
  induction xs as [|x xs IH]; intros H; [done|]. unfold all_fly. rewrite fmap_cons, mjoin_cons, (H 0 x eq_refl). apply IH.
  intros i. apply (H (S i)).
Qed.
Lemma sW_good n0 s xs s' : sW (cnt s) n0 s xs s' -> good_ids (all_ids xs).
Proof. intros [H1 H2 H3 H4 H5 H6 H7 H8 H9 _ _]. split; [done|]. intros i Hi. specialize (H4 i Hi). lia. Qed.
Lemma wrote_refl n s : open_counter (cfile s) = Val (cnt s) -> wrote n [] s s.
Proof. intros H. split; try done; [constructor|set_solver|lia]. Qed.

Lemma good_at xs i x : xs !! i = Some x -> good_ids (all_ids xs) -> good_ids (g_ids x).
Proof.
  intros Hi [Hn Hl]. destruct (all_ids_at _ _ _ Hi) as (rest & P1 & _). rewrite P1 in Hn.
  apply NoDup_app in Hn as (? & _ & _). split; [done|]. intros j Hj. apply Hl. rewrite P1. set_solver.
Qed.

Section events.
  Context (C : cparams).

  (** Any number of threads started with nothing known. *)
  Lemma machine_reach (n0 : nat) (xs0 : list gh) (ts0 : list (prog st (list object))) Q s s' ts' :
    closed s = false -> open_counter (cfile s) = Val (cnt s) ->
    Forall (fun x => g_ids x = [] /\ g_pop x = [] /\ g_fly x = []) xs0 ->
    sum_list (g_bud <$> xs0) + length (chan s) = n0 -> (cnt s + N.of_nat n0 < 2 ^ 64)%N ->
    length xs0 = length ts0 ->
    (forall i x p, xs0 !! i = Some x -> ts0 !! i = Some p -> swp p (Q i x) x s) ->
    rtc mstep (s, ts0) (s', ts') ->
    exists xs, sW (cnt s) n0 s xs s' /\ all_wp sE sGU sB (sW (cnt s) n0 s) (fun i x r s' => exists x0, xs0 !! i = Some x0 /\ Q i x0 x r s') xs ts' s'.
  Proof.
    intros Hcl Hf Hx Hb Hm Hl Hw Hr.
    assert (Ei : all_ids xs0 = []).
    { clear -Hx. induction Hx as [|x xs [H _] _ IH]; [done|]. unfold all_ids. rewrite fmap_cons, mjoin_cons, H. exact IH. }
    assert (Ep : all_pop xs0 = []).
    { clear -Hx. induction Hx as [|x xs (_ & H & _) _ IH]; [done|]. unfold all_pop. rewrite fmap_cons, mjoin_cons, H. exact IH. }
    destruct (all_wp_rtc sE sGU sB sE_refl sE_trans (sW (cnt s) n0 s) (sW_step (cnt s) n0 s)
      (fun i x r s' => exists x0, xs0 !! i = Some x0 /\ Q i x0 x r s') xs0 _ _ Hr) as [xs Ha].
    { cbn [fst snd]. split; [done|]. split.
      - split; try done; rewrite ?Ei, ?Ep; [constructor|set_solver|cbn; lia|done|done|]. intros k Hk. by left.
      - intros i x p Hi Hp. eapply wp_mono; [|by eapply Hw]. intros x' r s1 HQ. cbn beta. by exists x. }
    cbn [fst snd] in Ha. exists xs. split; [apply Ha|exact Ha].
  Qed.

  Lemma insert_closed tid io level o s s' ts :
    closed s = true -> rtc mstep (s, [CollModel.insert C tid io level o]) (s', ts) ->
    s' = s /\ (ts = [CollModel.insert C tid io level o] \/ ts = [Done (Err ECollectionClosed)]).
  Proof.
    intros Hcl Hr. inversion Hr as [|? [s1 ts1] ? Hs Hr']; subst; [by split; [|left]|].
    inversion Hs as [a1 a2 i f s1' p' Hi Hf]; subst. destruct i as [|i]; [|done]. cbn in Hi.
    injection Hi as <-. cbn in Hf. rewrite Hcl in Hf. injection Hf as <- <-. cbn in Hr'.
    inversion Hr' as [|? [s2 ts2] ? Hs2 Hr2]; subst; [by split; [|right]|].
    exfalso. inversion Hs2 as [a1 a2 i f s2' p' Hi Hf]; subst. by destruct i as [|i].
  Qed.

  Lemma insert_reach tid io level o s s' ts :
    open_counter (cfile s) = Val (cnt s) -> chan s = [] -> (cnt s + 1 < 2 ^ 64)%N ->
    rtc mstep (s, [CollModel.insert C tid io level o]) (s', ts) ->
    chan s' = [] /\ exists ids, wrote 1 ids s s' /\
      (forall o', ts = [Done (Val o')] ->
        o_id o' ∈ ids /\ stored C s' o' /\ exists o1, embed_objects C [o] = Val [o1] /\ payload o' = payload o1) /\
      (forall r, ts = [Done r] -> (forall os, embed_objects C [o] = Val os -> Forall (fits C) os) -> paired s s').
  Proof.
    intros Hf Hch Hm Hr. destruct (closed s) eqn:Hcl.
    { destruct (insert_closed _ _ _ _ _ _ _ Hcl Hr) as [-> Hts]. split; [done|]. exists []. split; [by apply wrote_refl|]. split.
      - intros o' ->. destruct Hts as [Hts|Hts]; discriminate.
      - intros r _ _. split; intros k Hk; [by left|done]. }
    destruct (all_wp_rtc sE sGU sB sE_refl sE_trans (sW (cnt s) 1 s) (sW_step (cnt s) 1 s)
      (fun _ x' r s' => (forall o', r = Val o' -> good_ids (g_ids x') ->
         g_ids x' = [o_id o'] /\ stored C s' o' /\ exists o1, embed_objects C [o] = Val [o1] /\ payload o' = payload o1) /\
         ((forall os, embed_objects C [o] = Val os -> Forall (fits C) os) -> g_fly x' = [])) [Gh [] 1 [] []] _ _ Hr) as [xs Ha].
    { cbn [fst snd]. split; [done|]. split.
      - split; try done; [constructor|set_solver|cbn; lia|by rewrite Hch|]. intros k Hk. by left.
      - intros i x p Hi Hp. destruct i as [|i]; [|done]. injection Hi as <-. injection Hp as <-.
        by apply (swp_insert C tid io level o (Gh [] 1 [] []) s). }
    cbn [fst snd] in Ha. destruct Ha as (Hl & HW & Hall). split.
    { pose proof (sw_pop _ _ _ _ _ HW) as Hp. rewrite Hch in Hp. apply Permutation_nil_r in Hp.
      by apply app_eq_nil in Hp as [_ ->]. }
    exists (all_ids xs). split; [by apply sW_wrote|]. split; [|intros r -> Hfit].
    2:{ apply (sW_paired _ _ _ _ _ HW). destruct xs as [|x [|? ?]]; [done| |done].
        apply all_fly_nil. intros [|i] y; [|done]. intros [= <-].
        by apply (Hall 0 x (Done r) eq_refl eq_refl s' (sE_refl x s')). }
    intros o' ->. destruct xs as [|x [|? ?]]; [done| |done].
    assert (Hgx : good_ids (g_ids x)) by (apply (good_at [x] 0); [done|by eapply sW_good]).
    destruct (proj1 (Hall 0 x (Done (Val o')) eq_refl eq_refl s' (sE_refl x s')) o' eq_refl Hgx) as (E1 & E2).
    split; [|done]. unfold all_ids. cbn. rewrite E1. set_solver.
  Qed.

  Definition batch_ghost (os : list (object * nat)) : list gh :=
    (fun i => Gh [] (length (chunk (cp_workers C) i os)) [] []) <$> seq 0 (cp_workers C).

  (** The results of a batch: who got which id. *)
  Definition batch_done (s : st) (os : list object) (rs : list (out (list object))) (ids : list N) (s' : st) : Prop :=
    NoDup (o_id <$> mjoin (out_list <$> rs)) /\
    Forall (fun o => o_id o ∈ ids /\ stored C s' o) (mjoin (out_list <$> rs)) /\
    Forall (fun o => payload o ∈ payload <$> os) (mjoin (out_list <$> rs)) /\
    ((forall r, r ∈ rs -> exists l, r = Val l) -> 0 < cp_workers C ->
      payload <$> mjoin (out_list <$> rs) ≡ₚ payload <$> os) /\
    (Forall (fits C) os -> paired s s').

  Lemma ids_join (xs : list gh) (rs : list (out (list object))) :
    length xs = length rs ->
    (forall i x r, xs !! i = Some x -> rs !! i = Some r -> exists rest, g_ids x ≡ₚ (o_id <$> out_list r) ++ rest) ->
    exists rest, all_ids xs ≡ₚ (o_id <$> mjoin (out_list <$> rs)) ++ rest.
  Proof.
    revert rs. induction xs as [|x xs IH]; intros [|r rs] Hl H; try done.
    - by exists [].
    - destruct (IH rs) as [rest Hr]; [by injection Hl|intros i; apply (H (S i))|].
      destruct (H 0 x r eq_refl eq_refl) as [rest0 H0]. exists (rest0 ++ rest).
      unfold all_ids. rewrite fmap_cons, mjoin_cons, H0. fold (all_ids xs). rewrite Hr.
      rewrite fmap_cons, mjoin_cons, fmap_app. rewrite <- !app_assoc. f_equiv. rewrite !app_assoc. f_equiv. apply Permutation_app_comm.
  Qed.

  Lemma batch_reach os s s' ts :
    closed s = false -> open_counter (cfile s) = Val (cnt s) -> chan s = [] -> (cnt s + N.of_nat (length os) < 2 ^ 64)%N ->
    rtc mstep (s, batch_threads C os) (s', ts) ->
    chan s' = [] /\ exists ids, wrote (length os) ids s s' /\
      forall rs, ts = Done <$> rs -> batch_done s (os.*1) rs ids s'.
  Proof.
    intros Hcl Hf Hch Hm Hr.
    assert (Hsum : sum_list (g_bud <$> batch_ghost os) <= length os).
    { unfold batch_ghost. rewrite <- list_fmap_compose. etrans; [|apply (chunk_length_sum (cp_workers C))]. done. }
    destruct (machine_reach (sum_list (g_bud <$> batch_ghost os)) (batch_ghost os) (batch_threads C os)
      (fun i x0 => wk_post C (chunk (cp_workers C) i os) x0 s) s s' ts) as (xs & HW & Ha); try done.
    { unfold batch_ghost. apply Forall_fmap, Forall_true. done. }
    { rewrite Hch. cbn. lia. }
    { lia. }
    { unfold batch_ghost, batch_threads. by rewrite !fmap_length. }
    { intros i x p Hi Hp. unfold batch_ghost, batch_threads in *. rewrite list_lookup_fmap in Hi. rewrite list_lookup_fmap in Hp.
      destruct (seq 0 (cp_workers C) !! i) as [j|] eqn:Ei; [|done]. cbn in Hi, Hp. simplify_eq.
      apply lookup_seq in Ei as [-> Hlt]. apply swp_worker; [done|]. cbn [g_bud]. apply le_n. }
    split.
    { pose proof (sw_pop _ _ _ _ _ HW) as Hp. rewrite Hch in Hp. apply Permutation_nil_r in Hp.
      by apply app_eq_nil in Hp as [_ ->]. }
    pose proof (sW_good _ _ _ _ HW) as Hg. exists (all_ids xs). split.
    { destruct (sW_wrote _ _ _ _ Hcl HW) as [a1 a2 a3 a4 a5 a6]. split; try done. lia. }
    intros rs ->. destruct (all_wp_done _ _ _ sE_refl _ _ _ _ _ Ha) as (Hl & _ & HQ).
    assert (HQ' : forall i x r, xs !! i = Some x -> rs !! i = Some r ->
       i < cp_workers C /\ exists ids, g_ids x = ids /\ (forall os', r = Val os' -> ids = o_id <$> os' /\
         payload <$> os' = payload <$> (chunk (cp_workers C) i os).*1 /\ Forall (stored C s') os')).
    { intros i x r Hx Hr'. destruct (HQ i x r Hx Hr') as (x0 & Hx0 & ids & E1 & _ & _ & _ & _ & _ & E2).
      unfold batch_ghost in Hx0. rewrite list_lookup_fmap in Hx0.
      destruct (seq 0 (cp_workers C) !! i) as [j|] eqn:Ei; [|done]. cbn in Hx0. simplify_eq. apply lookup_seq in Ei as [-> Hlt].
      cbn in *. split; [done|]. exists ids. split; [done|]. intros os' ->. destruct (E2 os' eq_refl) as (F1 & F2 & F3).
      split_and!; [done|done|]. apply F3. by eapply good_at. }
    assert (Hnth : forall i r, rs !! i = Some r -> exists x, xs !! i = Some x).
    { intros i r Hi. apply lookup_lt_is_Some_2. rewrite Hl. by eapply lookup_lt_Some. }
    split_and!.
    - destruct (ids_join xs rs Hl) as [rest Hp].
      + intros i x r Hx Hr'. destruct (HQ' i x r Hx Hr') as (_ & ids & E1 & E2). subst ids. destruct r as [os'|e|z].
        * exists []. destruct (E2 os' eq_refl) as (-> & _). cbn. by rewrite app_nil_r.
        * by exists (g_ids x).
        * by exists (g_ids x).
      + destruct Hg as [Hn _]. rewrite Hp in Hn. by apply NoDup_app in Hn as (? & _).
    - apply Forall_forall. intros o Ho. apply elem_of_list_join in Ho as (l & Ho & Hl').
      apply elem_of_list_fmap in Hl' as (r & -> & Hr'). apply elem_of_list_lookup in Hr' as [i Hi].
      destruct (Hnth i r Hi) as [x Hx]. destruct (HQ' i x r Hx Hi) as (_ & ids & E1 & E2).
      destruct r as [os'|e|z]; [|by apply elem_of_nil in Ho..]. destruct (E2 os' eq_refl) as (F1 & _ & F3). cbn in Ho.
      rewrite Forall_forall in F3. split; [|by apply F3]. unfold all_ids. eapply (mjoin_elem _ i); [by rewrite list_lookup_fmap, Hx|].
      rewrite E1, F1. by apply elem_of_list_fmap_1.
    - apply Forall_forall. intros o Ho. apply elem_of_list_join in Ho as (l & Ho & Hl').
      apply elem_of_list_fmap in Hl' as (r & -> & Hr'). apply elem_of_list_lookup in Hr' as [i Hi].
      destruct (Hnth i r Hi) as [x Hx]. destruct (HQ' i x r Hx Hi) as (_ & ids & E1 & E2).
      destruct r as [os'|e|z]; [|by apply elem_of_nil in Ho..]. destruct (E2 os' eq_refl) as (_ & F2 & _). cbn in Ho.
      apply (elem_of_list_fmap_1 payload) in Ho. rewrite F2 in Ho. apply elem_of_list_fmap in Ho as (o1 & -> & Ho).
      apply elem_of_list_fmap_1. apply elem_of_list_fmap in Ho as (p & -> & Hp). apply elem_of_list_fmap_1.
      unfold chunk in Hp. apply elem_of_take in Hp as (j & Hj & _). rewrite lookup_drop in Hj. by eapply elem_of_list_lookup_2.
    - intros Hv Hw. enough (payload <$> mjoin (out_list <$> rs) = payload <$> os.*1) as -> by done.
      assert (Hlen : length rs = cp_workers C).
      { apply rtc_mstep_length in Hr. cbn [snd] in Hr. unfold batch_threads in Hr. rewrite !fmap_length, seq_length in Hr. done. }
      transitivity (mjoin ((fun i => payload <$> (chunk (cp_workers C) i os).*1) <$> seq 0 (cp_workers C))).
      + rewrite (fmap_mjoin payload). f_equal. apply list_eq. intros i. rewrite !list_lookup_fmap.
        destruct (rs !! i) as [r|] eqn:Hi.
        * destruct (Hnth i r Hi) as [x Hx]. destruct (HQ' i x r Hx Hi) as (Hlt & ids & E1 & E2).
          rewrite lookup_seq_lt by done. destruct (Hv r) as [l ->]; [by eapply elem_of_list_lookup_2|].
          destruct (E2 l eq_refl) as (_ & Ep & _).
          change (Some (payload <$> l) = Some (payload <$> (chunk (cp_workers C) i os).*1)). by rewrite Ep.
        * apply lookup_ge_None in Hi. rewrite (proj2 (lookup_ge_None (seq 0 (cp_workers C)) i)); [done|]. rewrite seq_length. lia.
      + replace (payload <$> os.*1) with (payload <$> (mjoin ((fun i => chunk (cp_workers C) i os) <$> seq 0 (cp_workers C))).*1)
          by (by rewrite chunk_join). rewrite !(fmap_mjoin fst), (fmap_mjoin payload).
        rewrite <- !list_fmap_compose. done.
    - intros Hfit. apply (sW_paired _ _ _ _ _ HW). apply all_fly_nil. intros i x Hx.
      destruct (lookup_lt_is_Some_2 rs i) as [r Hr0]; [rewrite <- Hl; by eapply lookup_lt_Some|].
      destruct (HQ i x r Hx Hr0) as (x0 & Hx0 & ids & _ & _ & _ & E2 & _).
      unfold batch_ghost in Hx0. rewrite list_lookup_fmap in Hx0.
      destruct (seq 0 (cp_workers C) !! i) as [j|] eqn:Ei; [|done]. cbn in Hx0. simplify_eq. apply E2.
      rewrite Forall_forall in Hfit |- *. intros o Ho. apply Hfit. apply elem_of_list_fmap in Ho as (p & -> & Hp). apply elem_of_list_fmap_1.
      unfold chunk in Hp. apply elem_of_take in Hp as (j' & Hj & _). rewrite lookup_drop in Hj. by eapply elem_of_list_lookup_2.
  Qed.

  Lemma pops_join (xs : list gh) (rs : list (out (list object))) :
    length xs = length rs ->
    (forall i x r, xs !! i = Some x -> rs !! i = Some r -> payload <$> out_list r = payload <$> (g_pop x).*1) ->
    payload <$> mjoin (out_list <$> rs) = payload <$> (all_pop xs).*1.
  Proof.
    revert rs. induction xs as [|x xs IH]; intros [|r rs] Hl H; try done.
    unfold all_pop. rewrite !fmap_cons, !mjoin_cons, !fmap_app. rewrite (H 0 x r eq_refl eq_refl). f_equal.
    apply IH; [by injection Hl|intros i; apply (H (S i))].
  Qed.

  Lemma batch2_reach os s s' ts :
    closed s = false -> open_counter (cfile s) = Val (cnt s) -> (cnt s + N.of_nat (length os) < 2 ^ 64)%N ->
    rtc mstep (set_chan os s, batch2_threads C os) (s', ts) ->
    exists ids, wrote (length os) ids s s' /\
      forall rs, ts = Done <$> rs -> batch_done s (os.*1) rs ids s'.
  Proof.
    intros Hcl Hf Hm Hr.
    set (xs0 := (fun _ : nat => Gh [] 0 [] []) <$> seq 0 (cp_workers C)).
    assert (Hsum : sum_list (g_bud <$> xs0) = 0).
    { unfold xs0. rewrite <- list_fmap_compose. induction (seq 0 (cp_workers C)); [done|by cbn]. }
    destruct (machine_reach (length os) xs0 (batch2_threads C os)
      (fun i x0 => wk2_post C x0 (set_chan os s)) (set_chan os s) s' ts) as (xs & HW & Ha); try done.
    { unfold xs0. apply Forall_fmap, Forall_true. done. }
    { rewrite Hsum. done. }
    { unfold xs0, batch2_threads. by rewrite !fmap_length. }
    { intros i x p Hi Hp. unfold xs0, batch2_threads in *. rewrite list_lookup_fmap in Hi. rewrite list_lookup_fmap in Hp.
      destruct (seq 0 (cp_workers C) !! i) as [j|] eqn:Ei; [|done]. cbn [fmap option_fmap option_map] in Hi, Hp. simplify_eq.
      apply swp_worker2. done. }
    pose proof (sW_good _ _ _ _ HW) as Hg. exists (all_ids xs). split.
    { destruct (sW_wrote _ (set_chan os s) _ _ Hcl HW) as [a1 a2 a3 a4 a5 a6]. by split. }
    intros rs ->. destruct (all_wp_done _ _ _ sE_refl _ _ _ _ _ Ha) as (Hl & _ & HQ).
    assert (HQ' : forall i x r, xs !! i = Some x -> rs !! i = Some r ->
       (forall os', r = Val os' -> g_ids x = o_id <$> os' /\
         payload <$> os' = payload <$> (g_pop x).*1 /\ chan s' = [] /\ Forall (stored C s') os')).
    { intros i x r Hx Hr'. destruct (HQ i x r Hx Hr') as (x0 & Hx0 & ids & pops & E1 & E2 & _ & _ & _ & _ & E3).
      unfold xs0 in Hx0. rewrite list_lookup_fmap in Hx0.
      destruct (seq 0 (cp_workers C) !! i) as [j|] eqn:Ei; [|done]. cbn in Hx0. simplify_eq.
      cbn in *. intros os' ->. destruct (E3 os' eq_refl) as (F1 & F2 & F3 & F4).
      subst. split_and!; [done|done|done|]. apply F4. by eapply good_at. }
    assert (Hnth : forall i r, rs !! i = Some r -> exists x, xs !! i = Some x).
    { intros i r Hi. apply lookup_lt_is_Some_2. rewrite Hl. by eapply lookup_lt_Some. }
    split_and!.
    - destruct (ids_join xs rs Hl) as [rest Hp].
      + intros i x r Hx Hr'. specialize (HQ' i x r Hx Hr'). destruct r as [os'|e|z].
        * exists []. destruct (HQ' os' eq_refl) as (-> & _). cbn. by rewrite app_nil_r.
        * by exists (g_ids x).
        * by exists (g_ids x).
      + destruct Hg as [Hn _]. rewrite Hp in Hn. by apply NoDup_app in Hn as (? & _).
    - apply Forall_forall. intros o Ho. apply elem_of_list_join in Ho as (l & Ho & Hl').
      apply elem_of_list_fmap in Hl' as (r & -> & Hr'). apply elem_of_list_lookup in Hr' as [i Hi].
      destruct (Hnth i r Hi) as [x Hx]. specialize (HQ' i x r Hx Hi).
      destruct r as [os'|e|z]; [|by apply elem_of_nil in Ho..]. destruct (HQ' os' eq_refl) as (F1 & _ & _ & F3). cbn in Ho.
      rewrite Forall_forall in F3. split; [|by apply F3]. unfold all_ids. eapply (mjoin_elem _ i); [by rewrite list_lookup_fmap, Hx|].
      rewrite F1. by apply elem_of_list_fmap_1.
    - apply Forall_forall. intros o Ho. apply elem_of_list_join in Ho as (l & Ho & Hl').
      apply elem_of_list_fmap in Hl' as (r & -> & Hr'). apply elem_of_list_lookup in Hr' as [i Hi].
      destruct (Hnth i r Hi) as [x Hx]. specialize (HQ' i x r Hx Hi).
      destruct r as [os'|e|z]; [|by apply elem_of_nil in Ho..]. destruct (HQ' os' eq_refl) as (_ & F2 & _). cbn in Ho.
      apply (elem_of_list_fmap_1 payload) in Ho. rewrite F2 in Ho. apply elem_of_list_fmap in Ho as (o1 & -> & Ho).
      apply elem_of_list_fmap_1. pose proof (sw_pop _ _ _ _ _ HW) as Hp. cbn in Hp.
      rewrite <- Hp, fmap_app. apply elem_of_app. left. apply elem_of_list_fmap in Ho as (p & -> & Ho). apply elem_of_list_fmap_1.
      unfold all_pop. eapply (mjoin_elem _ i); [by rewrite list_lookup_fmap, Hx|done].
    - intros Hv Hw.
      assert (Hlen : length rs = cp_workers C).
      { apply rtc_mstep_length in Hr. cbn [snd] in Hr. unfold batch2_threads in Hr. rewrite !fmap_length, seq_length in Hr. done. }
      rewrite (pops_join xs rs Hl).
      + pose proof (sw_pop _ _ _ _ _ HW) as Hp. cbn in Hp.
        assert (chan s' = []) as Hch.
        { destruct (lookup_lt_is_Some_2 rs 0) as [r Hr0]; [lia|]. destruct (Hnth 0 r Hr0) as [x Hx].
          destruct (Hv r) as [l ->]; [by eapply elem_of_list_lookup_2|]. by apply (HQ' 0 x (Val l) Hx Hr0 l). }
        rewrite Hch, app_nil_r in Hp. by rewrite Hp.
      + intros i x r Hx Hr0. destruct (Hv r) as [l ->]; [by eapply elem_of_list_lookup_2|].
        by apply (HQ' i x (Val l) Hx Hr0 l).
    - intros Hfit. apply (sW_paired (cnt s) (length os) (set_chan os s) xs s' HW). apply all_fly_nil. intros i x Hx.
      destruct (lookup_lt_is_Some_2 rs i) as [r Hr0]; [rewrite <- Hl; by eapply lookup_lt_Some|].
      destruct (HQ i x r Hx Hr0) as (x0 & Hx0 & ids & pops & _ & Ep & _ & E2 & _).
      unfold xs0 in Hx0. rewrite list_lookup_fmap in Hx0.
      destruct (seq 0 (cp_workers C) !! i) as [j|] eqn:Ei; [|done]. cbn in Hx0. simplify_eq. apply E2. cbn in Ep.
      pose proof (sw_pop _ _ _ _ _ HW) as Hp. cbn in Hp.
      rewrite Forall_forall in Hfit |- *. intros o Ho. apply Hfit. rewrite <- Hp, fmap_app. apply elem_of_app. left.
      apply elem_of_list_fmap in Ho as (p & -> & Ho). apply elem_of_list_fmap_1.
      unfold all_pop. eapply (mjoin_elem _ i); [by rewrite list_lookup_fmap, Hx|]. cbn. by rewrite Ep.
  Qed.

  (** Deleting: only the object itself is removed. *)
  Definition del_rel (id : N) (s s' : st) : Prop :=
    cnt s' = cnt s /\ cfile s' = cfile s /\ chan s' = chan s /\ closed s' = closed s /\ vecs s' = vecs s /\
    (forall k, objs s' !! k = objs s !! k \/ objs s' !! k = None /\ k = id_key id).
  Lemma del_rel_refl id s : del_rel id s s. Proof. split_and!; try done. by left. Qed.
  Lemma del_rel_trans id a b c : del_rel id a b -> del_rel id b c -> del_rel id a c.
  Proof.
    intros (?&?&?&?&?&Ha) (?&?&?&?&?&Hb). split_and!; [congruence..|]. intros k.
    destruct (Hb k) as [->|Hk]; [apply Ha|by right].
  Qed.
  Lemma steps_flush_del io id : steps (del_rel id) (flush io).
  Proof.
    apply steps_act. intros s. destruct (flush_store io s) as (F1&F2&F3&F4&F5&F6). unfold del_rel.
    split_and!; try done. intros k. left. by rewrite F2.
  Qed.
  Lemma steps_delete f io id : steps (del_rel id) (delete_found f io id).
  Proof.
    unfold delete_found. apply steps_bind; [apply steps_act; intros s; apply del_rel_refl|].
    intros [o|]; [|done]. apply steps_bind.
    { apply steps_act. intros s. destruct (closed s) eqn:Hcl; [apply del_rel_refl|]. unfold del_rel. cbn. split_and!; try done.
      intros k. destruct (decide (k = id_key id)) as [->|Hne]; [right; by rewrite lookup_delete|left; by rewrite lookup_delete_ne]. }
    intros _. apply steps_bind; [|intros _; apply steps_flush_del].
    unfold hnsw_delete. destruct (enc_delete id); [|done..]. apply steps_act. intros s. cbn. unfold del_rel. split_and!; try done. by left.
  Qed.
  Lemma delete_result f io id s s' :
    looked_up C s id f -> exec (delete_found f io id) s = Some (s', Val tt) ->
    objs s' !! id_key id = None \/ vecs s' !! id_key id = None.
  Proof.
    intros Hlk Hx. unfold delete_found in Hx. apply exec_bind_val in Hx as (s1 & f' & H1 & H2).
    rewrite exec_act in H1. apply Some_pair_inj in H1 as [<- H1]. cbn in H1. subst f.
    destruct f' as [o|].
    - apply exec_bind_val in H2 as (s2 & [] & H2 & H3). unfold delete_object in H2. rewrite exec_act in H2. cbn in H2.
      destruct (closed s) eqn:Hcl; [by apply Some_pair_inj in H2 as [_ ?]|]. apply Some_pair_inj in H2 as [<- _].
      apply exec_bind_val in H3 as (s3 & [] & H3 & H4). unfold hnsw_delete in H3.
      destruct (enc_delete id); [|done..]. rewrite exec_act in H3. apply Some_pair_inj in H3 as [<- _].
      unfold flush in H4. rewrite exec_act in H4.
      destruct (flush_store io (set_deleted ({[id]} ∪ deleted (wal_append a (set_objs (delete (id_key id) (objs s)) s)))
         (wal_append a (set_objs (delete (id_key id) (objs s)) s)))) as (_ & F & _).
      apply (inj Some) in H4. rewrite H4 in F. cbn in F. left. rewrite F. apply lookup_delete.
    - cbn in H2. apply Some_pair_inj in H2 as [<- _]. inversion Hlk as [H1|H1| |]; [|done]. unfold get_object in H1.
      destruct (objs s !! id_key id) as [ob|]; [|by left]. destruct (closed s); [done|].
      destruct (vecs s !! id_key id) as [vb|]; [|by right].
      destruct (de_props (cp_json C) ob) as [p|e|z]; [|done..]. cbn in H1. destruct (de_vec vb) as [v|e|z]; done.
  Qed.
End events.

(** ** Reopening *)
Definition idx_only (s s' : st) : Prop :=
  cnt s' = cnt s /\ cfile s' = cfile s /\ chan s' = chan s /\ closed s' = closed s /\ vecs s' = vecs s /\ objs s' = objs s /\
  batch s' = batch s /\ wseq s' = wseq s /\ wlog s' = wlog s.
Lemma idx_only_refl s : idx_only s s. Proof. by unfold idx_only. Qed.
Lemma idx_only_trans a b c : idx_only a b -> idx_only b c -> idx_only a c.
Proof. intros (?&?&?&?&?&?&?&?&?) (?&?&?&?&?&?&?&?&?). unfold idx_only. split_and!; congruence. Qed.

Ltac out_inv H :=
  repeat match type of H with
  | (x ← ?o; _) = Val _ => let E := fresh "E" in destruct o eqn:E; [|discriminate H|discriminate H]; cbn [mbind out_bind] in H
  end.

Lemma restore_idx r s s' : restore r s = Val s' -> idx_only s s'.
Proof.
  unfold restore. destruct r as [|op r]; [done|].
  repeat match goal with |- (if ?b then _ else _) = _ -> _ => destruct b end; intros H; [..|done].
  - unfold de_add_vertex in H. out_inv H. apply Val_inj in H as <-. by unfold idx_only.
  - unfold de_set_entry in H. out_inv H. apply Val_inj in H as <-. by unfold idx_only.
  - unfold de_set_conns in H. out_inv H. apply Val_inj in H as <-. by unfold idx_only.
  - unfold de_add_conn in H. out_inv H. apply Val_inj in H as <-. by unfold idx_only.
  - unfold de_delete in H. out_inv H. apply Val_inj in H as <-. by unfold idx_only.
Qed.
Lemma replay_idx rs s s' : replay rs s = Val s' -> idx_only s s'.
Proof.
  revert s. induction rs as [|r rs IH]; intros s H; cbn [replay] in H.
  - apply Val_inj in H as <-. apply idx_only_refl.
  - destruct (restore r s) as [s1|e|z] eqn:E; [|done..]. cbn in H. eapply idx_only_trans; [by eapply restore_idx|by apply IH].
Qed.
Lemma populate_idx m kvs s s' : CollModel.populate m kvs s = Val s' -> idx_only s s'.
Proof.
  revert s. induction kvs as [|[k v] kvs IH]; intros s H; cbn [CollModel.populate] in H.
  - apply Val_inj in H as <-. apply idx_only_refl.
  - destruct (or_pan PIndex (le_get 8 k)) as [id|e|z]; [|done..]. cbn in H.
    destruct (get_vector m id) as [ov|e|z]; [|done..]. cbn in H. destruct (nodes s !! id) as [w|]; [|done].
    eapply idx_only_trans; [|by apply IH]. by unfold idx_only.
Qed.
Lemma reopen_store d s' :
  reopen d = Val s' ->
  open_counter (cfile s') = Val (cnt s') /\ cfile s' = d_cfile d /\ objs s' = d_objs d /\ vecs s' = d_vecs d /\
  chan s' = [] /\ closed s' = false /\ batch s' = [] /\ wlog s' = d_log d /\ wseq s' = u64 (N.of_nat (length (d_log d)) + 1).
Proof.
  unfold reopen. destruct (open_counter (d_cfile d)) as [c|e|z] eqn:Ec; [|done..]. cbn [mbind out_bind].
  match goal with |- context [replay _ ?x] => set (s0 := x) end.
  destruct (replay (d_log d) s0) as [s1|e|z] eqn:Er; [|done..]. cbn [mbind out_bind]. intros Hp.
  destruct (idx_only_trans _ _ _ (replay_idx _ _ _ Er) (populate_idx _ _ _ _ Hp)) as (H1&H2&H3&H4&H5&H6&H7&H8&H9).
  cbn in *. rewrite H2, H1, H3, H4, H5, H6, H7, H8, H9. split_and!; try done.
Qed.
