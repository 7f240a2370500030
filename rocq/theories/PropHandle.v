(** C113-C114: what is open, when opening and closing may fail. *)
From stdpp Require Import gmap fin_maps.
From Verif Require Import GoBase HandleModel ProofBase.
Open Scope nat_scope.

(** ** What holds of every process *)
(** The five states a collection can be in. *)
Definition shape (c : rcoll) : Prop :=
  (rc_ctr c = true -> rc_obj c = true /\ rc_vec c = true /\ rc_closed c = false) /\
  (rc_closed c = true -> rc_ctr c = false /\ rc_obj c = false /\ rc_vec c = false).
Definition shapes (m : gmap string rcoll) : Prop := forall d c, m !! d = Some c -> shape c.
Definition mheld (m : gmap string rcoll) (l : lock) : Prop :=
  exists c, m !! l.1 = Some c /\ (if l.2 then rc_obj c else rc_vec c) = true.
Record wok (w : world) : Prop := MkWok {
  wo_shape : forall D, D ∈ w_dbs w -> shapes (rd_colls D);
  wo_held : forall D l, D ∈ w_dbs w -> held D l -> l ∈ w_locks w;
  wo_once : forall i j D D' l, w_dbs w !! i = Some D -> w_dbs w !! j = Some D' -> held D l -> held D' l -> i = j;
  wo_closed : forall D, D ∈ w_dbs w -> rd_closed D = true -> forall d c, rd_colls D !! d = Some c -> rc_closed c = true;
  wo_rows : NoDup (w_rows w)
}.
Lemma boot_ok rows : NoDup rows -> wok (boot rows).
Proof. intros Hn. split; cbn; try done; try (intros ? ? H; by apply elem_of_nil in H); try (intros ? H; by apply elem_of_nil in H). Qed.

Lemma open_store_ok L l f L1 : open_store L l f = (L1, None) -> f = false /\ l ∉ L /\ L1 = {[l]} ∪ L.
Proof. unfold open_store. destruct f; [done|]. destruct (decide (l ∈ L)); [done|]. by intros [= <-]. Qed.
Lemma open_store_err L l f L1 e : open_store L l f = (L1, Some e) -> L1 = L /\ (f = true \/ l ∈ L).
Proof. unfold open_store. destruct f; [intros [= <- _]; by auto|]. destruct (decide (l ∈ L)); [|done]. intros [= <- _]. by auto. Qed.
Lemma open_coll_ok d f L L1 c : open_coll d f L = (L1, ROk c) ->
  f = of_none /\ c = RColl true true true true false /\ (d, true) ∉ L /\ (d, false) ∉ L /\ L1 = {[(d, false)]} ∪ ({[(d, true)]} ∪ L).
Proof.
  unfold open_coll. destruct (open_store L (d, true) (of_obj f)) as [La [e|]] eqn:Ea; [done|]. apply open_store_ok in Ea as (F1 & Hn1 & ->).
  destruct (open_store _ (d, false) (of_vec f)) as [Lb e2] eqn:Eb. destruct f as [f1 f2 f3 f4]; cbn [of_obj of_vec of_ctr of_log] in *. subst f1.
  destruct f3; [done|]. destruct f4; [done|]. destruct e2; [done|]. apply open_store_ok in Eb as (-> & Hn2 & ->). intros [= <- <-]. split_and!; try done. set_solver.
Qed.
Lemma open_coll_mono d f L L1 r : open_coll d f L = (L1, r) -> L ⊆ L1.
Proof.
  unfold open_coll. destruct (open_store L (d, true) (of_obj f)) as [La e1] eqn:Ea.
  assert (L ⊆ La). { destruct e1; [apply open_store_err in Ea as [-> _]; done|apply open_store_ok in Ea as (_ & _ & ->); set_solver]. }
  destruct e1; [by intros [= <- _]|]. destruct (open_store _ (d, false) (of_vec f)) as [Lb e2] eqn:Eb.
  assert (La ⊆ Lb). { destruct e2; [apply open_store_err in Eb as [-> _]; done|apply open_store_ok in Eb as (_ & _ & ->); set_solver]. }
  repeat case_match; intros [= <- _]; set_solver.
Qed.
Lemma open_rows_mono rows fs L m L1 r : open_rows rows fs L m = (L1, r) -> L ⊆ L1.
Proof.
  revert L m. induction rows as [|d rows IH]; intros L m; cbn [open_rows]; [by intros [= <- _]|].
  destruct (open_coll d (fs d) L) as [La ra] eqn:Ea. apply open_coll_mono in Ea. destruct ra; [|by intros [= <- _]..].
  intros H%IH. set_solver.
Qed.
Lemma mheld_insert_open m d l : mheld (<[d := RColl true true true true false]> m) l -> mheld m l \/ l = (d, true) \/ l = (d, false).
Proof.
  intros (c & Hc & Hb). destruct l as [d' b]; cbn [fst snd] in *. destruct (decide (d = d')) as [<-|Hd].
  - destruct b; auto.
  - rewrite lookup_insert_ne in Hc by done. left. by exists c.
Qed.
Lemma open_rows_ok rows fs L m L1 m1 : open_rows rows fs L m = (L1, ROk m1) -> shapes m -> (forall l, mheld m l -> l ∈ L) ->
  shapes m1 /\ (forall l, mheld m1 l -> l ∈ L1) /\ (forall l, mheld m1 l -> mheld m l \/ l ∉ L) /\ (forall l, l ∈ L1 -> l ∈ L \/ mheld m1 l) /\
  (forall d c, m !! d = Some c -> mheld m (d, true) -> mheld m (d, false) -> m1 !! d = Some c).
Proof.
  revert L m. induction rows as [|d rows IH]; intros L m; cbn [open_rows]; [intros [= <- <-] ? ?; split_and!; auto|].
  destruct (open_coll d (fs d) L) as [La ra] eqn:Ea. destruct ra as [c| |]; [|done..]. apply open_coll_ok in Ea as (_ & -> & Hn1 & Hn2 & ->).
  intros H Hs Hh. assert (Hown : forall b, mheld (<[d := RColl true true true true false]> m) (d, b)).
  { intros b. eexists. cbn [fst]. rewrite lookup_insert. split; [done|]. by destruct b. }
  apply IH in H as (H1 & H2 & H3 & H4 & H5).
  - split_and!; [done|done| | |].
    + intros l [Hl|Hl]%H3; [|set_solver]. apply mheld_insert_open in Hl as [Hl|[-> | ->]]; auto.
    + intros l [Hl|Hl]%H4; [|by right]. assert (l = (d, false) \/ l = (d, true) \/ l ∈ L) as [-> |[-> |Hl']] by set_solver; [| |by left].
      all: right; eexists; cbn [fst]; split; [apply H5; [apply lookup_insert|apply Hown..]|done].
    + intros d' c' Hc Ht Hf. assert (d <> d') as Hd. { intros <-. apply Hn1, Hh, Ht. }
      apply H5; [by rewrite lookup_insert_ne|..]; [destruct Ht as (x & Hx & ?)|destruct Hf as (x & Hx & ?)]; cbn [fst] in Hx; exists x; cbn [fst]; by rewrite lookup_insert_ne.
  - intros d' c'. destruct (decide (d = d')) as [<-|Hd]; [rewrite lookup_insert; intros [= <-]; split; cbn; auto|rewrite lookup_insert_ne by done; apply Hs].
  - intros l [Hl|[-> | ->]]%mheld_insert_open; [apply Hh in Hl|..]; clear -Hl || clear; set_solver.
Qed.

(** What Close does to a collection. *)
Lemma close_coll_spec d f c L L1 c1 r : shape c -> close_coll d f c L = (L1, c1, r) ->
  shape c1 /\ rc_log c1 = rc_log c /\ rc_ctr c1 = false /\ (rc_ctr c = true -> rc_obj c = true /\ rc_vec c = true) /\
  (r = ROk tt <-> rc_ctr c = true /\ f = cf_none) /\ (r = ROk tt -> rc_closed c1 = true) /\ (r <> ROk tt -> rc_closed c1 = rc_closed c) /\
  (rc_ctr c = false -> c1 = c /\ L1 = L) /\
  (rc_obj c1 = true -> rc_obj c = true) /\ (rc_vec c1 = true -> rc_vec c = true) /\
  L1 = L ∖ (if decide (rc_obj c = rc_obj c1) then ∅ else {[(d, true)]}) ∖ (if decide (rc_vec c = rc_vec c1) then ∅ else {[(d, false)]}).
Proof.
  intros [Hs1 Hs2] E. destruct c as [b1 b2 b3 b4 b5]. destruct f as [g1 g2 g3]. unfold close_coll in E. cbn [rc_ctr rc_obj rc_vec rc_log rc_closed cf_ctr cf_obj cf_vec] in *.
  destruct b1; cbn [negb] in E.
  - destruct (Hs1 eq_refl) as (-> & -> & ->). destruct g1; [|destruct g2; [|destruct g3]]; injection E as <- <- <-; unfold shape, cf_none; cbn;
      split_and!; try done; try set_solver; try (split; [done|intros [_ [=]]]); auto.
  - injection E as <- <- <-. unfold shape. cbn. rewrite !decide_True by done. split_and!; try done; try set_solver; try (split; [done|by intros []]).
Qed.
Lemma mheld_close m d c c1 l : m !! d = Some c -> (rc_obj c1 = true -> rc_obj c = true) -> (rc_vec c1 = true -> rc_vec c = true) ->
  mheld (<[d := c1]> m) l -> mheld m l.
Proof.
  intros Hc Ho Hv (x & Hx & Hb). destruct l as [d' b]; cbn [fst snd] in *. destruct (decide (d = d')) as [<-|Hd].
  - rewrite lookup_insert in Hx. injection Hx as <-. exists c. split; [done|]. destruct b; cbn; auto.
  - rewrite lookup_insert_ne in Hx by done. by exists x.
Qed.
(** Locks given back are those that are no longer held. *)
Definition gave (m m1 : gmap string rcoll) (L L1 : gset lock) : Prop :=
  (forall l, mheld m1 l -> mheld m l) /\ (forall l, l ∈ L1 <-> l ∈ L /\ (mheld m l -> mheld m1 l)).
Lemma gave_refl m L : gave m m L L.
Proof. split; [done|]. intros l. split; [by auto|by intros []]. Qed.
Lemma gave_trans m m1 m2 L L1 L2 : gave m m1 L L1 -> gave m1 m2 L1 L2 -> gave m m2 L L2.
Proof.
  intros [H1 H2] [H3 H4]. split; [auto|]. intros l. rewrite H4, H2. split.
  - intros [[? ?] ?]. auto.
  - intros [? H]. split_and!; auto.
Qed.
Lemma gave_close m d f c L L1 c1 r : m !! d = Some c -> shape c -> close_coll d f c L = (L1, c1, r) -> gave m (<[d := c1]> m) L L1.
Proof.
  intros Hc Hs E. destruct (close_coll_spec _ _ _ _ _ _ _ Hs E) as (_ & _ & _ & _ & _ & _ & _ & _ & Ho & Hv & ->).
  split; [intros l; by eapply mheld_close|]. intros [d' b].
  assert (Hm : mheld m (d', b) -> mheld (<[d := c1]> m) (d', b) <-> ~ (d' = d /\ (if b then rc_obj c <> rc_obj c1 else rc_vec c <> rc_vec c1))).
  { intros (x & Hx & Hb). cbn [fst snd] in *. split.
    - intros (y & Hy & Hb') [-> Hne]. cbn [fst snd] in *. rewrite lookup_insert in Hy. injection Hy as <-. rewrite Hc in Hx. injection Hx as <-. destruct b; congruence.
    - intros Hne. unfold mheld. cbn [fst snd]. destruct (decide (d = d')) as [<-|Hd].
      + rewrite Hc in Hx. injection Hx as <-. exists c1. rewrite lookup_insert. split; [done|]. destruct b.
        * destruct (decide (rc_obj c = rc_obj c1)) as [<-|]; [done|]. exfalso. by apply Hne.
        * destruct (decide (rc_vec c = rc_vec c1)) as [<-|]; [done|]. exfalso. by apply Hne.
      + exists x. by rewrite lookup_insert_ne. }
  assert (Hgone : d' = d -> (if b then rc_obj c <> rc_obj c1 else rc_vec c <> rc_vec c1) -> mheld m (d', b)).
  { intros -> Hne. exists c. cbn [fst snd]. split; [done|]. destruct b; [destruct (rc_obj c), (rc_obj c1)|destruct (rc_vec c), (rc_vec c1)]; auto. }
  rewrite !elem_of_difference. split.
  - intros [[Hl H1] H2]. split; [done|]. intros Hh. apply Hm; [done|]. intros [-> Hne]. destruct b.
    + rewrite decide_False in H1 by done. set_solver.
    + rewrite decide_False in H2 by done. set_solver.
  - intros [Hl H]. clear E. split; [split; [done|]|]; (case_decide as Hd; [clear; set_solver|]); intros [= -> ->]%elem_of_singleton.
    + assert (Hh : mheld m (d, true)) by (by apply Hgone). apply (Hm Hh); [by apply H|done].
    + assert (Hh : mheld m (d, false)) by (by apply Hgone). apply (Hm Hh); [by apply H|done].
Qed.

Definition half (m : gmap string rcoll) : Prop := exists d c, m !! d = Some c /\ rc_ctr c = false /\ rc_closed c = false.
(** When a collection lets itself be closed. *)
Definition closable (c : rcoll) (f : cfault) : Prop := rc_closed c = true \/ rc_ctr c = true /\ f = cf_none.
Lemma shapes_insert m d c : shapes m -> shape c -> shapes (<[d := c]> m).
Proof. intros Hm Hc d' c'. destruct (decide (d = d')) as [<-|Hd]; [rewrite lookup_insert; by intros [= <-]|rewrite lookup_insert_ne by done; apply Hm]. Qed.
Lemma close_colls_spec order fs : forall m L L1 m1 r, NoDup order -> shapes m -> close_colls order fs m L = (L1, m1, r) ->
  shapes m1 /\ gave m m1 L L1 /\ dom m1 = dom m /\
  (r = ROk tt <-> forall d c, d ∈ order -> m !! d = Some c -> closable c (fs d)) /\
  (r = ROk tt -> forall d c, d ∈ order -> m1 !! d = Some c -> rc_closed c = true) /\
  (r <> ROk tt -> half m1) /\
  (forall d c, m !! d = Some c -> rc_closed c = true -> m1 !! d = Some c) /\
  (forall d, d ∉ order -> m1 !! d = m !! d) /\ (half m -> half m1).
Proof.
  induction order as [|d order IH]; intros m L L1 m1 r Hnd Hs; cbn [close_colls].
  { intros [= <- <- <-]. split_and!; try done; [apply gave_refl|split; [intros _ ? ? H; by apply elem_of_nil in H|done]|intros _ ? ? H; by apply elem_of_nil in H]. }
  apply NoDup_cons in Hnd as [Hd Hnd]. destruct (m !! d) as [c|] eqn:Hc.
  2:{ intros E. destruct (IH _ _ _ _ _ Hnd Hs E) as (H1 & H2 & H3 & H4 & H5 & H6 & H7 & H8 & H9). split_and!; try done.
      - rewrite H4. split; [intros H d' c' [-> |Hi]%elem_of_cons Hm; [congruence|eauto]|intros H d' c' Hi; apply H; by right].
      - intros Hr d' c' [-> |Hi]%elem_of_cons Hm; [rewrite H8 in Hm by done; congruence|eauto].
      - intros d' Hi. apply H8. intros ?. apply Hi. by right. }
  destruct (rc_closed c) eqn:Hcl.
  { intros E. destruct (IH _ _ _ _ _ Hnd Hs E) as (H1 & H2 & H3 & H4 & H5 & H6 & H7 & H8 & H9). split_and!; try done.
    - rewrite H4. split; [intros H d' c' [-> |Hi]%elem_of_cons Hm; [rewrite Hc in Hm; injection Hm as <-; by left|eauto]|intros H d' c' Hi; apply H; by right].
    - intros Hr d' c' [-> |Hi]%elem_of_cons Hm; [rewrite H8, Hc in Hm by done; by injection Hm as <-|eauto].
    - intros d' Hi. apply H8. intros ?. apply Hi. by right. }
  destruct (close_coll d (fs d) c L) as [[La c1] ra] eqn:Ea. pose proof (gave_close _ _ _ _ _ _ _ _ Hc (Hs _ _ Hc) Ea) as Hg.
  destruct (close_coll_spec _ _ _ _ _ _ _ (Hs _ _ Hc) Ea) as (Hsc & _ & Hct & _ & Hok & Hcl1 & Hcl2 & Hsame & _).
  pose proof (shapes_insert m d c1 Hs Hsc) as Hs1.
  assert (Hdom : dom (<[d := c1]> m) = dom m). { rewrite dom_insert_L. apply elem_of_dom_2 in Hc. clear -Hc. set_solver. }
  destruct ra as [[]|e|].
  - intros E. destruct (IH _ _ _ _ _ Hnd Hs1 E) as (H1 & H2 & H3 & H4 & H5 & H6 & H7 & H8 & H9). pose proof (proj1 Hok eq_refl) as [Hc1 Hf].
    specialize (Hcl1 eq_refl). split_and!; try done.
    + by eapply gave_trans.
    + congruence.
    + rewrite H4. split.
      * intros H d' c' [-> |Hi]%elem_of_cons Hm; [rewrite Hc in Hm; injection Hm as <-; by right|]. apply (H d' c' Hi). rewrite lookup_insert_ne; [done|by intros <-].
      * intros H d' c' Hi Hm. rewrite lookup_insert_ne in Hm by (by intros <-). apply (H d' c'); [by right|done].
    + intros Hr d' c' [-> |Hi]%elem_of_cons Hm; [rewrite H8, lookup_insert in Hm by done; by injection Hm as <-|eauto].
    + intros d' c' Hm Hx. apply H7; [|done]. rewrite lookup_insert_ne; [done|]. intros <-. congruence.
    + intros d' Hi. rewrite H8, lookup_insert_ne; [done|intros <-; apply Hi; by left|intros ?; apply Hi; by right].
    + intros (d' & c' & Hm & Hx & Hy). apply H9. exists d', c'. rewrite lookup_insert_ne; [done|]. intros <-. congruence.
  - intros [= <- <- <-]. assert (Hn : RErr e <> @ROk unit tt) by done. specialize (Hcl2 Hn). split_and!; try done.
    + split; [done|]. intros H. specialize (H d c (elem_of_list_here _ _) Hc) as [H|H]; [congruence|]. by apply Hok in H.
    + intros _. exists d, c1. rewrite lookup_insert. split_and!; congruence.
    + intros d' c' Hm Hx. rewrite lookup_insert_ne; [done|]. intros <-. congruence.
    + intros d' Hi. rewrite lookup_insert_ne; [done|intros <-; apply Hi; by left].
    + intros _. exists d, c1. rewrite lookup_insert. split_and!; congruence.
  - exfalso. clear -Ea. unfold close_coll in Ea. repeat case_match; done.
Qed.

Lemma put_ok w rows L1 i D1 : wok w -> i < length (w_dbs w) -> NoDup rows -> shapes (rd_colls D1) -> (forall l, mheld (rd_colls D1) l -> l ∈ L1) ->
  (forall j D' l, j <> i -> w_dbs w !! j = Some D' -> held D' l -> l ∈ L1 /\ ~ mheld (rd_colls D1) l) ->
  (rd_closed D1 = true -> forall d c, rd_colls D1 !! d = Some c -> rc_closed c = true) -> wok (World rows L1 (<[i := D1]> (w_dbs w))).
Proof.
  intros [H1 H2 H3 H4 H5] Hi Hn Hs Hh Hd Hcl.
  assert (Hat : forall j D, <[i := D1]> (w_dbs w) !! j = Some D -> j = i /\ D = D1 \/ j <> i /\ w_dbs w !! j = Some D).
  { intros j D. destruct (decide (i = j)) as [<-|Hj]; [rewrite list_lookup_insert by done; intros [= <-]; by left|rewrite list_lookup_insert_ne by done; intros ?; right; auto]. }
  split; cbn [w_rows w_locks w_dbs]; [| | | |done].
  - intros D [j Hj]%elem_of_list_lookup. apply Hat in Hj as [[_ ->]|[_ Hj]]; [done|]. by apply H1, elem_of_list_lookup_2 with j.
  - intros D l [j Hj]%elem_of_list_lookup Hl. apply Hat in Hj as [[_ ->]|[Hij Hj]]; [by apply Hh|]. by eapply Hd.
  - intros j k D D' l Hj Hk Hl Hl'. apply Hat in Hj as [[-> ->]|[Hij Hj]]; apply Hat in Hk as [[-> ->]|[Hik Hk]]; [done|..].
    + exfalso. by eapply (Hd k).
    + exfalso. by eapply (Hd j).
    + by eapply H3.
  - intros D [j Hj]%elem_of_list_lookup. apply Hat in Hj as [[_ ->]|[_ Hj]]; [done|]. by apply H4, elem_of_list_lookup_2 with j.
Qed.
Lemma gave_ok w L1 i D D1 : wok w -> w_dbs w !! i = Some D -> shapes (rd_colls D1) -> gave (rd_colls D) (rd_colls D1) (w_locks w) L1 ->
  (rd_closed D1 = true -> forall d c, rd_colls D1 !! d = Some c -> rc_closed c = true) -> wok (World (w_rows w) L1 (<[i := D1]> (w_dbs w))).
Proof.
  intros Hw Hi Hs [Hg1 Hg2] Hcl. pose proof Hw as [H1 H2 H3 H4 H5]. apply put_ok; try done; [by eapply lookup_lt_Some| |].
  - intros l Hl. apply Hg2. split; [|done]. apply (H2 D); [by eapply elem_of_list_lookup_2|]. by apply Hg1.
  - intros j D' l Hj HD' Hl. assert (Hnot : ~ mheld (rd_colls D) l). { intros Hl'. apply Hj. by eapply H3. }
    split; [|intros ?; by apply Hnot, Hg1]. apply Hg2. split; [|done]. apply (H2 D'); [by eapply elem_of_list_lookup_2|done].
Qed.
Lemma close_db_spec w i D fm order fs L1 D1 r : wok w -> w_dbs w !! i = Some D -> order ≡ₚ (map_to_list (rd_colls D)).*1 ->
  close_db fm order fs D (w_locks w) = (L1, D1, r) ->
  wok (World (w_rows w) L1 (<[i := D1]> (w_dbs w))) /\ gave (rd_colls D) (rd_colls D1) (w_locks w) L1 /\ dom (rd_colls D1) = dom (rd_colls D) /\ rd_sql D1 = false /\
  (r = ROk tt <-> rd_sql D && fm = false /\ forall d c, rd_colls D !! d = Some c -> closable c (fs d)) /\
  (r = ROk tt -> rd_closed D1 = true /\ forall d c, rd_colls D1 !! d = Some c -> rc_closed c = true) /\
  (r <> ROk tt -> rd_sql D && fm = false -> half (rd_colls D1)) /\ (half (rd_colls D) -> half (rd_colls D1)).
Proof.
  intros Hw Hi Hord. pose proof Hw as [H1 H2 H3 H4 H5]. assert (HD : D ∈ w_dbs w) by (by eapply elem_of_list_lookup_2). unfold close_db.
  destruct (rd_sql D && fm) eqn:Efm.
  { intros [= <- <- <-]. cbn [rd_colls rd_sql rd_closed]. split_and!; try done; [|apply gave_refl|by split; [|intros []]].
    eapply gave_ok; cbn [rd_colls rd_closed]; [done..|auto|apply gave_refl|by apply H4]. }
  destruct (close_colls order fs (rd_colls D) (w_locks w)) as [[La m] ra] eqn:Ea. intros [= <- <- <-].
  assert (Hnd : NoDup order) by (rewrite Hord; apply NoDup_fst_map_to_list).
  assert (Hin : forall d c, rd_colls D !! d = Some c -> d ∈ order).
  { intros d c Hd. rewrite Hord. apply elem_of_list_fmap. exists (d, c). split; [done|]. by apply elem_of_map_to_list. }
  destruct (close_colls_spec _ _ _ _ _ _ _ Hnd (H1 _ HD) Ea) as (S1 & S2 & S3 & S4 & S5 & S6 & S7 & S8 & S9). cbn [rd_colls rd_sql rd_closed].
  assert (Hall : ra = ROk tt -> forall d c, m !! d = Some c -> rc_closed c = true).
  { intros Hr d c Hd. apply (S5 Hr d c); [|done]. assert (d ∈ dom m) as Hdm by (by eapply elem_of_dom_2). rewrite S3 in Hdm. apply elem_of_dom in Hdm as [c' Hc']. eauto. }
  split_and!; try done.
  - eapply gave_ok; cbn [rd_colls rd_closed]; [done..|]. destruct ra as [[]| |]; [intros _; by apply Hall|..].
    all: intros Hcl d c Hd; assert (d ∈ dom m) as Hdm by (by eapply elem_of_dom_2); rewrite S3 in Hdm; apply elem_of_dom in Hdm as [c' Hc'];
      pose proof (H4 _ HD Hcl _ _ Hc') as Hx; rewrite (S7 _ _ Hc' Hx) in Hd; by injection Hd as <-.
  - rewrite S4. split; [intros H; split; [done|]; eauto|intros [_ H]; eauto].
  - intros Hr. split; [by rewrite Hr|by apply Hall].
  - auto.
Qed.

Lemma step_ok w e w1 r : wok w -> can w e -> wstep w e = (w1, r) -> wok w1.
Proof.
  intros Hw Hcan. pose proof Hw as [H1 H2 H3 H4 H5]. destruct e as [fm fs|i fm order fs|i d fm f|i d f|X|]; cbn [wstep].
  - destruct fm; [by intros [= <- _]|]. destruct (open_rows (w_rows w) fs (w_locks w) ∅) as [L ra] eqn:Ea. pose proof (open_rows_mono _ _ _ _ _ _ Ea) as Hm.
    destruct ra as [m|e|]; intros [= <- _]; [|split; cbn; auto; intros D l HD Hl; apply Hm; eauto|by apply boot_ok].
    destruct (open_rows_ok _ _ _ _ _ _ Ea) as (S1 & S2 & S3 & _).
    { intros d c Hc. by rewrite lookup_empty in Hc. }
    { intros l (c & Hc & _). by rewrite lookup_empty in Hc. }
    assert (S4 : forall l, mheld m l -> l ∉ w_locks w). { intros l [(c & Hc & _)|?]%S3; [by rewrite lookup_empty in Hc|done]. }
    assert (Hat : forall j D, (w_dbs w ++ [RDB true m false]) !! j = Some D -> w_dbs w !! j = Some D \/ j = length (w_dbs w) /\ D = RDB true m false).
    { intros j D [Hj|[Hj Hx]]%lookup_app_Some; [by left|]. apply list_lookup_singleton_Some in Hx as [Hx <-]. right. split; [lia|done]. }
    split; cbn [w_rows w_locks w_dbs]; [| | | |done].
    + intros D [HD| ->%elem_of_list_singleton]%elem_of_app; [by apply H1|done].
    + intros D l [HD| ->%elem_of_list_singleton]%elem_of_app Hl; [apply Hm; eauto|by apply S2].
    + intros j k D D' l Hj Hk Hl Hl'. apply Hat in Hj as [Hj|[-> ->]]; apply Hat in Hk as [Hk|[-> ->]]; [by eapply H3| | |done].
      * exfalso. apply (S4 l Hl'). eapply H2; [by eapply elem_of_list_lookup_2|done].
      * exfalso. apply (S4 l Hl). eapply H2; [by eapply elem_of_list_lookup_2|done].
    + intros D [HD| ->%elem_of_list_singleton]%elem_of_app; [by apply H4|done].
  - destruct (w_dbs w !! i) as [D|] eqn:Hi; [|by intros [= <- _]]. destruct (close_db fm order fs D (w_locks w)) as [[L D1] ra] eqn:Ea. intros [= <- _].
    eapply close_db_spec in Ea; [apply Ea|done..|]. by apply Hcan.
  - destruct (w_dbs w !! i) as [D|] eqn:Hi; [|by intros [= <- _]]. destruct (rd_closed D) eqn:Hcl; [by intros [= <- _]|].
    destruct (decide _); [by intros [= <- _]|]. destruct (negb (rd_sql D)); [by intros [= <- _]|]. destruct fm; [by intros [= <- _]|].
    destruct (decide (d ∈ w_rows w)) as [|Hnr]; [by intros [= <- _]|]. destruct (open_coll d f (w_locks w)) as [L ra] eqn:Ea. pose proof (open_coll_mono _ _ _ _ _ Ea) as Hm.
    assert (Hnd : NoDup (w_rows w ++ [d])). { apply NoDup_app. split_and!; [done|intros x Hx ->%elem_of_list_singleton; done|apply NoDup_singleton]. }
    assert (HD : D ∈ w_dbs w) by (by eapply elem_of_list_lookup_2).
    destruct ra as [c|e|]; intros [= <- _]; [|split; cbn; auto; intros D' l HD' Hl; apply Hm; eauto|by apply boot_ok].
    apply open_coll_ok in Ea as (_ & -> & Hn1 & Hn2 & ->). apply put_ok; cbn [rd_colls rd_closed]; [done|by eapply lookup_lt_Some|done| | | |congruence].
    + apply shapes_insert; [auto|]. by split; cbn.
    + intros l [Hl|[-> | ->]]%mheld_insert_open; [apply (H2 D) in Hl; [|done]; clear -Hl; set_solver|clear; set_solver..].
    + intros j D' l Hj HD' Hl. assert (l ∈ w_locks w) as Hlk. { eapply H2; [by eapply elem_of_list_lookup_2|done]. }
      split; [clear -Hlk; set_solver|]. intros [Hl'|[-> | ->]]%mheld_insert_open; [|done..]. apply Hj. by eapply H3.
  - destruct (w_dbs w !! i) as [D|] eqn:Hi; [|by intros [= <- _]]. assert (HD : D ∈ w_dbs w) by (by eapply elem_of_list_lookup_2).
    destruct (rd_colls D !! d) as [c|] eqn:Hc; [|by intros [= <- _]]. destruct (close_coll d f c (w_locks w)) as [[L c1] ra] eqn:Ea. intros [= <- _].
    pose proof (gave_close _ _ _ _ _ _ _ _ Hc (H1 _ HD _ _ Hc) Ea) as Hg. destruct (close_coll_spec _ _ _ _ _ _ _ (H1 _ HD _ _ Hc) Ea) as (Hsc & _ & _ & _ & Hok & Hcl1 & Hcl2 & Hsame & _).
    eapply gave_ok; cbn [rd_colls rd_closed]; [done|done|apply shapes_insert; auto|done|]. intros Hcl d' c'. destruct (decide (d = d')) as [<-|Hd].
    + rewrite lookup_insert. intros [= <-]. pose proof (H4 _ HD Hcl _ _ Hc) as Hx. destruct (H1 _ HD _ _ Hc) as [_ Hs2]. destruct (Hs2 Hx) as (Hf & _ & _). by destruct (Hsame Hf) as [-> _].
    + rewrite lookup_insert_ne by done. by apply H4.
  - intros [= <- _]. split; cbn; auto. intros D l HD Hl. apply elem_of_difference. split; [eauto|]. by eapply Hcan.
  - intros [= <- _]. by apply boot_ok.
Qed.
Lemma run_ok w tr w1 : wrun w tr w1 -> wok w -> wok w1.
Proof. induction 1; [done|]. intros Hw. apply IHwrun. by eapply step_ok. Qed.

(** ** C113 Close gives back what Open took *)
(** Close succeeds exactly if the sql database is closed without a failure and every
    collection is closed already, or can be closed: its counter is open and none of
    the three closes fails. *)
Theorem C113_close_exact : forall rows tr w i D fm order fs, NoDup rows -> wrun (boot rows) tr w -> w_dbs w !! i = Some D -> can w (WClose i fm order fs) ->
  ((wstep w (WClose i fm order fs)).2 = ROk tt <->
   (rd_sql D = false \/ fm = false) /\ forall d c, rd_colls D !! d = Some c -> rc_closed c = true \/ rc_ctr c = true /\ fs d = CFault false false false).
Proof.
  intros rows tr w i D fm order fs Hn Hr Hi Hcan. pose proof (run_ok _ _ _ Hr (boot_ok _ Hn)) as Hw. cbn [wstep]. rewrite Hi.
  destruct (close_db fm order fs D (w_locks w)) as [[L D1] r] eqn:E. cbn [snd].
  destruct (close_db_spec _ _ _ _ _ _ _ _ _ Hw Hi (Hcan _ Hi) E) as (_ & _ & _ & _ & Hok & _). rewrite Hok, andb_false_iff. done.
Qed.
Print Assumptions C113_close_exact.

(** After a Close that succeeds the database and its collections are closed, and
    the locks it held are free; other databases keep theirs. *)
Theorem C113_close_releases : forall rows tr w i D fm order fs w1, NoDup rows -> wrun (boot rows) tr w -> w_dbs w !! i = Some D ->
  can w (WClose i fm order fs) -> wstep w (WClose i fm order fs) = (w1, ROk tt) ->
  (exists D1, w_dbs w1 !! i = Some D1 /\ rd_closed D1 = true /\ rd_sql D1 = false /\ dom (rd_colls D1) = dom (rd_colls D) /\
    forall d c, rd_colls D1 !! d = Some c -> rc_closed c = true /\ rc_ctr c = false /\ rc_obj c = false /\ rc_vec c = false) /\
  (forall l, held D l -> l ∈ w_locks w /\ l ∉ w_locks w1) /\
  (forall j D' l, j <> i -> w_dbs w !! j = Some D' -> held D' l -> w_dbs w1 !! j = Some D' /\ l ∈ w_locks w1).
Proof.
  intros rows tr w i D fm order fs w1 Hn Hr Hi Hcan. pose proof (run_ok _ _ _ Hr (boot_ok _ Hn)) as Hw. cbn [wstep]. rewrite Hi.
  assert (HD : D ∈ w_dbs w) by (by eapply elem_of_list_lookup_2).
  destruct (close_db fm order fs D (w_locks w)) as [[L D1] r] eqn:E. intros [= <- ->]. cbn [w_dbs w_locks].
  destruct (close_db_spec _ _ _ _ _ _ _ _ _ Hw Hi (Hcan _ Hi) E) as (Hw1 & [Hg1 Hg2] & Hdom & Hsql & _ & Hok & _). destruct (Hok eq_refl) as [Hcl Hall].
  assert (Hi1 : <[i:=D1]> (w_dbs w) !! i = Some D1). { apply list_lookup_insert. by eapply lookup_lt_Some. }
  assert (HD1 : D1 ∈ w_dbs (World (w_rows w) L (<[i:=D1]> (w_dbs w)))) by (by eapply elem_of_list_lookup_2).
  assert (Hs : forall d c, rd_colls D1 !! d = Some c -> rc_closed c = true /\ rc_ctr c = false /\ rc_obj c = false /\ rc_vec c = false).
  { intros d c Hc. pose proof (Hall _ _ Hc) as Hx. split; [done|]. destruct (wo_shape _ Hw1 _ HD1 _ _ Hc) as [_ Hs2]. by apply Hs2. }
  split; [by exists D1|]. split.
  - intros l Hl. split; [by eapply (wo_held _ Hw)|]. intros [_ Hx]%Hg2. destruct (Hx Hl) as (c & Hc & Hb). destruct (Hs _ _ Hc) as (_ & _ & H1 & H2). destruct l.2; congruence.
  - intros j D' l Hj HD' Hl. assert (HD'1 : <[i:=D1]> (w_dbs w) !! j = Some D') by (by rewrite list_lookup_insert_ne).
    split; [done|]. apply (wo_held _ Hw1 D'); [by eapply elem_of_list_lookup_2|done].
Qed.
Print Assumptions C113_close_releases.

(** Used in the examples: no call fails. *)
Definition no_of : string -> ofault := fun _ => of_none.
Definition no_cf : string -> cfault := fun _ => cf_none.
Definition fails_at {A} (d : string) (bad good : A) : string -> A := fun x => if decide (x = d) then bad else good.
Fixpoint cans (w : world) (evs : list wev) : Prop :=
  match evs with [] => True | e :: evs' => can w e /\ cans (wstep w e).1 evs' end.
Fixpoint results (w : world) (evs : list wev) : list (wev * rout unit) :=
  match evs with [] => [] | e :: evs' => (e, (wstep w e).2) :: results (wstep w e).1 evs' end.
Fixpoint after (w : world) (evs : list wev) : world := match evs with [] => w | e :: evs' => after (wstep w e).1 evs' end.
Lemma run_by evs : forall w, cans w evs -> wrun w (results w evs) (after w evs).
Proof. induction evs as [|e evs IH]; intros w; [constructor|]. intros [Hc Hr]. cbn [results after]. econstructor; [done| |by apply IH]. by destruct (wstep w e). Qed.

(** Two collections, one of which is closed by itself; then the database is closed. *)
Definition two : list wev := [WOpen false no_of; WCreate 0 "a" false of_none; WCreate 0 "b" false of_none; WCloseColl 0 "a" cf_none].
Definition closing : wev := WClose 0 false ["b"; "a"]%string no_cf.
Ltac order_ok := let H := fresh in intros ? H; vm_compute in H; injection H as <-; vm_compute; first [reflexivity | apply perm_swap].
Ltac can_all := repeat (split; [first [exact I | order_ok]|]); exact I.
Example C113_case : cans (boot []) (two ++ [closing]) /\ (results (boot []) (two ++ [closing])).*2 = replicate 5 (ROk tt) /\
  exists D, w_dbs (after (boot []) two) !! 0 = Some D /\ held D ("b"%string, true) /\ held D ("b"%string, false) /\ rd_colls D !! "a"%string = Some (RColl false false false true true).
Proof.
  split; [can_all|]. split; [vm_compute; reflexivity|]. eexists. split; [vm_compute; reflexivity|].
  split; [eexists; split; [vm_compute; reflexivity|reflexivity]|]. split; [eexists; split; [vm_compute; reflexivity|reflexivity]|]. vm_compute. reflexivity.
Qed.

(** Not everything is given back: the log of the index is never closed. *)
Theorem C113_everything_closed_refuted : exists tr w D c, wrun (boot []) tr w /\ w_dbs w !! 0 = Some D /\ rd_closed D = true /\
  rd_colls D !! "a"%string = Some c /\ rc_closed c = true /\ rc_log c = true.
Proof.
  exists (results (boot []) (two ++ [closing])), (after (boot []) (two ++ [closing])). eexists _, _. split; [apply run_by; can_all|].
  split; [vm_compute; reflexivity|]. split; [reflexivity|]. split; [vm_compute; reflexivity|]. split; reflexivity.
Qed.
Print Assumptions C113_everything_closed_refuted.

(** ** A Close that failed *)
(** The process goes on. *)
Definition lives (tr : list (wev * rout unit)) : Prop := Forall (fun er => er.1 <> WRestart /\ er.2 <> RPan) tr.
Lemma half_step w e w1 r i D : wok w -> can w e -> wstep w e = (w1, r) -> e <> WRestart -> r <> RPan -> w_dbs w !! i = Some D -> half (rd_colls D) ->
  exists D1, w_dbs w1 !! i = Some D1 /\ half (rd_colls D1).
Proof.
  intros Hw Hcan E He Hr Hi Hh. assert (Hkeep : w_dbs w1 = w_dbs w -> exists D1, w_dbs w1 !! i = Some D1 /\ half (rd_colls D1)). { intros ->. by exists D. }
  destruct e as [fm fs|j fm order fs|j d fm f|j d f|X|]; cbn [wstep] in E; [| | | | |done].
  - destruct fm; [injection E as <- <-; by apply Hkeep|]. destruct (open_rows _ _ _ _) as [L [m|e|]]; injection E as <- <-; [|by apply Hkeep|done].
    exists D. split; [|done]. cbn [w_dbs]. by apply lookup_app_l_Some.
  - destruct (w_dbs w !! j) as [D'|] eqn:Hj; [|injection E as <- <-; by apply Hkeep]. destruct (close_db fm order fs D' (w_locks w)) as [[L D1] ra] eqn:Ea. injection E as <- <-. cbn [w_dbs].
    destruct (close_db_spec _ _ _ _ _ _ _ _ _ Hw Hj (Hcan _ Hj) Ea) as (_ & _ & _ & _ & _ & _ & _ & Hx). destruct (decide (j = i)) as [-> |Hij].
    + rewrite Hi in Hj. injection Hj as <-. exists D1. split; [apply list_lookup_insert; by eapply lookup_lt_Some|by apply Hx].
    + exists D. by rewrite list_lookup_insert_ne.
  - destruct (w_dbs w !! j) as [D'|] eqn:Hj; [|injection E as <- <-; by apply Hkeep].
    destruct (rd_closed D'); [injection E as <- <-; by apply Hkeep|]. destruct (decide _) as [|Hnd]; [injection E as <- <-; by apply Hkeep|].
    destruct (negb _); [injection E as <- <-; by apply Hkeep|]. destruct fm; [injection E as <- <-; by apply Hkeep|].
    destruct (decide _); [injection E as <- <-; by apply Hkeep|]. destruct (open_coll d f (w_locks w)) as [L [c|e|]]; injection E as <- <-; [|by apply Hkeep|done]. cbn [w_dbs].
    destruct (decide (j = i)) as [-> |Hij]; [|exists D; by rewrite list_lookup_insert_ne].
    rewrite Hi in Hj. injection Hj as <-. eexists. split; [apply list_lookup_insert; by eapply lookup_lt_Some|]. cbn [rd_colls].
    destruct Hh as (d' & c' & Hc' & Hx). exists d', c'. rewrite lookup_insert_ne; [done|]. intros <-. apply Hnd. by eapply elem_of_dom_2.
  - destruct (w_dbs w !! j) as [D'|] eqn:Hj; [|injection E as <- <-; by apply Hkeep]. destruct (rd_colls D' !! d) as [c|] eqn:Hc; [|injection E as <- <-; by apply Hkeep].
    destruct (close_coll d f c (w_locks w)) as [[L c1] ra] eqn:Ea. injection E as <- <-. cbn [w_dbs]. destruct (decide (j = i)) as [-> |Hij]; [|exists D; by rewrite list_lookup_insert_ne].
    rewrite Hi in Hj. injection Hj as <-. assert (HD : D ∈ w_dbs w) by (by eapply elem_of_list_lookup_2).
    destruct (close_coll_spec _ _ _ _ _ _ _ (wo_shape _ Hw _ HD _ _ Hc) Ea) as (_ & _ & _ & _ & _ & _ & _ & Hsame & _).
    eexists. split; [apply list_lookup_insert; by eapply lookup_lt_Some|]. cbn [rd_colls]. destruct Hh as (d' & c' & Hc' & Hx & Hy). exists d'. destruct (decide (d = d')) as [<-|Hd].
    + rewrite Hc in Hc'. injection Hc' as <-. destruct (Hsame Hx) as [-> _]. exists c. by rewrite lookup_insert.
    + exists c'. by rewrite lookup_insert_ne.
  - injection E as <- <-. by apply Hkeep.
Qed.
Lemma half_run w tr w1 i D : wrun w tr w1 -> wok w -> lives tr -> w_dbs w !! i = Some D -> half (rd_colls D) -> exists D1, w_dbs w1 !! i = Some D1 /\ half (rd_colls D1).
Proof.
  intros Hr. revert D. induction Hr as [|w e w1 r tr w2 Hc E Hr IH]; intros D Hw Hl Hi Hh; [by exists D|]. apply Forall_cons in Hl as [[He Hp] Hl].
  destruct (half_step _ _ _ _ _ _ Hw Hc E He Hp Hi Hh) as (D1 & Hi1 & Hh1). eapply IH; [by eapply step_ok|done..].
Qed.

(** A Close that failed at one of the collections fails for ever, whatever is done
    meanwhile, until the process ends. *)
Theorem C113_stuck : forall rows tr w i order fs e w1 tr2 w2 fm2 order2 fs2, NoDup rows -> wrun (boot rows) tr w -> i < length (w_dbs w) ->
  can w (WClose i false order fs) -> wstep w (WClose i false order fs) = (w1, RErr e) -> wrun w1 tr2 w2 -> lives tr2 ->
  can w2 (WClose i fm2 order2 fs2) -> (wstep w2 (WClose i fm2 order2 fs2)).2 <> ROk tt.
Proof.
  intros rows tr w i order fs e w1 tr2 w2 fm2 order2 fs2 Hn Hr [D Hi]%lookup_lt_is_Some_2 Hcan E Hr2 Hl Hcan2. pose proof (run_ok _ _ _ Hr (boot_ok _ Hn)) as Hw.
  pose proof (step_ok _ _ _ _ Hw Hcan E) as Hw1. cbn [wstep] in E. rewrite Hi in E.
  destruct (close_db false order fs D (w_locks w)) as [[L D1] r] eqn:Ea. injection E as <- ->.
  destruct (close_db_spec _ _ _ _ _ _ _ _ _ Hw Hi (Hcan _ Hi) Ea) as (_ & _ & _ & _ & _ & _ & Hx & _).
  destruct (half_run _ _ _ i D1 Hr2 Hw1 Hl) as (D2 & Hi2 & d & c & Hc & Hct & Hcl).
  { apply list_lookup_insert. by eapply lookup_lt_Some. }
  { apply Hx; [done|by rewrite andb_false_r]. }
  pose proof (run_ok _ _ _ Hr2 Hw1) as Hw2. cbn [wstep]. rewrite Hi2. destruct (close_db fm2 order2 fs2 D2 (w_locks w2)) as [[L3 D3] r3] eqn:E3. cbn [snd].
  destruct (close_db_spec _ _ _ _ _ _ _ _ _ Hw2 Hi2 (Hcan2 _ Hi2) E3) as (_ & _ & _ & _ & Hok & _). rewrite Hok. intros [_ H]. destruct (H _ _ Hc) as [|[? _]]; congruence.
Qed.
Print Assumptions C113_stuck.

(** A Close that failed can be tried again: false. *)
Definition bad_close : wev := WClose 0 false ["b"; "a"]%string (fails_at "b"%string (CFault false true false) cf_none).
Theorem C113_retry_refuted : exists tr w, wrun (boot []) tr w /\ can w bad_close /\ (wstep w bad_close).2 = RErr XFault /\
  can (wstep w bad_close).1 closing /\ (wstep (wstep w bad_close).1 closing).2 = RErr XFileClosed.
Proof.
  exists (results (boot []) two), (after (boot []) two). split; [apply run_by; can_all|]. split; [order_ok|]. split; [vm_compute; reflexivity|]. split; [order_ok|]. vm_compute. reflexivity.
Qed.
Print Assumptions C113_retry_refuted.
(** Missing: a Close that failed at a collection (C113_stuck).  If it failed at the
    sql database, and no collection had been half closed before, it can. *)
Theorem C113_retry_partial : forall rows tr w i D order fs w1 order2 fm2, NoDup rows -> wrun (boot rows) tr w -> w_dbs w !! i = Some D -> rd_sql D = true ->
  (forall d c, rd_colls D !! d = Some c -> rc_closed c = true \/ rc_ctr c = true) ->
  can w (WClose i true order fs) -> wstep w (WClose i true order fs) = (w1, RErr XFault) ->
  can w1 (WClose i fm2 order2 no_cf) -> (wstep w1 (WClose i fm2 order2 no_cf)).2 = ROk tt.
Proof.
  intros rows tr w i D order fs w1 order2 fm2 Hn Hr Hi Hsql Hall Hcan E Hcan2. pose proof (run_ok _ _ _ Hr (boot_ok _ Hn)) as Hw.
  assert (Hr1 : wrun (boot rows) (tr ++ [(WClose i true order fs, RErr XFault)]) w1).
  { clear -Hr Hcan E. induction Hr as [w|? ? ? ? ? ? ? ? ? IH]; cbn [app]; [econstructor; [done|exact E|constructor]|]. econstructor; [done..|]. by apply IH. }
  cbn [wstep] in E. rewrite Hi in E. unfold close_db in E. rewrite Hsql in E. cbn [andb] in E. injection E as <-.
  eapply C113_close_exact; [exact Hn|exact Hr1| |done|].
  { cbn [w_dbs]. apply list_lookup_insert. by eapply lookup_lt_Some. }
  cbn [rd_sql rd_colls]. split; [by left|]. intros d c Hc. destruct (Hall _ _ Hc) as [?|?]; [by left|by right].
Qed.
Print Assumptions C113_retry_partial.
Example C113_retry_case : cans (boot []) (two ++ [WClose 0 true ["a"; "b"]%string no_cf; closing]) /\
  (results (boot []) (two ++ [WClose 0 true ["a"; "b"]%string no_cf; closing])).*2 = replicate 4 (ROk tt) ++ [RErr XFault; ROk tt].
Proof. split; [can_all|]. vm_compute. reflexivity. Qed.

(** ** C114 Opening again *)
Definition fine (L : gset lock) (fs : string -> ofault) (d : string) : Prop := fs d = OFault false false false false /\ (d, true) ∉ L /\ (d, false) ∉ L.
(** The store of vectors cannot be opened and nothing else goes wrong. *)
Definition blind (L : gset lock) (fs : string -> ofault) (d : string) : Prop :=
  of_obj (fs d) = false /\ of_ctr (fs d) = false /\ of_log (fs d) = false /\ (d, true) ∉ L /\ (of_vec (fs d) = true \/ (d, false) ∈ L).
Lemma open_coll_exact d f L : (f = of_none /\ (d, true) ∉ L /\ (d, false) ∉ L /\ open_coll d f L = ({[(d, false)]} ∪ ({[(d, true)]} ∪ L), ROk (RColl true true true true false))) \/
  (blind L (fun _ => f) d /\ (open_coll d f L).2 = RPan) \/
  (~ (f = of_none /\ (d, true) ∉ L /\ (d, false) ∉ L) /\ ~ blind L (fun _ => f) d /\ exists e, (open_coll d f L).2 = RErr e).
Proof.
  unfold open_coll, open_store, blind, of_none. destruct f as [f1 f2 f3 f4]. cbn [of_obj of_vec of_ctr of_log]. destruct f1.
  { right; right. split; [by intros [? _]|]. split; [by intros [? _]|]. by eexists. }
  match goal with |- context [@decide ((d, true) ∈ L) ?i] => destruct (@decide _ i) as [Ht|Ht] end.
  { right; right. split; [by intros (_ & ? & _)|]. split; [by intros (_ & _ & _ & ? & _)|]. by eexists. }
  assert (Hv : (d, false) ∈ ({[(d, true)]} ∪ L : gset lock) <-> (d, false) ∈ L) by (clear; set_solver).
  destruct f3; [right; right; split; [by intros [? _]|]; split; [by intros (_ & ? & _)|]; repeat case_match; by eexists|].
  destruct f4; [right; right; split; [by intros [? _]|]; split; [by intros (_ & _ & ? & _)|]; repeat case_match; by eexists|].
  destruct f2; [right; left; split_and!; auto|]. match goal with |- context [@decide ((d, false) ∈ _) ?i] => destruct (@decide _ i) as [Hf|Hf] end; rewrite Hv in Hf; [right; left; split_and!; auto|left; split_and!; auto].
Qed.
Lemma open_rows_exact rows fs : forall L m, NoDup rows ->
  ((exists m1, (open_rows rows fs L m).2 = ROk m1) <-> Forall (fine L fs) rows) /\
  ((open_rows rows fs L m).2 = RPan <-> exists r1 d r2, rows = r1 ++ d :: r2 /\ Forall (fine L fs) r1 /\ blind L fs d).
Proof.
  induction rows as [|d rows IH]; intros L m Hnd; cbn [open_rows].
  { split; [split; [constructor|by eexists]|]. split; [done|]. by intros ([|] & ? & ? & ? & _). }
  apply NoDup_cons in Hnd as [Hd Hnd].
  destruct (open_coll_exact d (fs d) L) as [(E1 & Ht & Hf & ->)|[[Hb E]|(Hn1 & Hn2 & e & E)]].
  - set (L1 := {[(d, false)]} ∪ ({[(d, true)]} ∪ L) : gset lock). destruct (IH L1 (<[d := RColl true true true true false]> m) Hnd) as [I1 I2].
    assert (Hin : forall d' b, d' <> d -> (d', b) ∈ L1 <-> (d', b) ∈ L). { intros d' b Hne. subst L1. clear -Hne. set_solver. }
    assert (Hfine : forall d', d' ∈ rows -> fine L1 fs d' <-> fine L fs d'). { intros d' Hi. unfold fine. rewrite !Hin; [done|by intros -> ..]. }
    assert (Hsub : forall r, r ⊆ rows -> Forall (fine L1 fs) r <-> Forall (fine L fs) r). { intros r Hr. rewrite !Forall_forall. split; intros H x Hx; apply Hfine; auto. }
    split.
    + rewrite I1, Hsub by done. rewrite Forall_cons. split; [intros ?; split; [by split|done]|by intros [_ ?]].
    + rewrite I2. split.
      * intros (r1 & x & r2 & -> & H1 & H2). exists (d :: r1), x, r2. split; [done|]. rewrite Forall_cons. split; [split; [by split|apply Hsub; [set_solver|done]]|].
        unfold blind in *. rewrite !Hin in H2; [done|intros ->; apply Hd, elem_of_app; right; by left..].
      * intros ([|y r1] & x & r2 & Er & H1 & H2); cbn [app] in Er; injection Er as <- Er.
        { exfalso. destruct H2 as (_ & _ & _ & _ & [H2|H2]); [by rewrite E1 in H2|done]. }
        subst rows. apply Forall_cons in H1 as [_ H1]. exists r1, x, r2. split; [done|]. split; [apply Hsub; [set_solver|done]|].
        unfold blind in *. rewrite !Hin; [done|intros ->; apply Hd, elem_of_app; right; by left..].
  - destruct (open_coll d (fs d) L) as [La ra]. cbn [snd] in E. subst ra. cbn [snd].
    assert (Hnf : ~ fine L fs d). { intros (E1 & _ & H). destruct Hb as (_ & _ & _ & _ & [Hb|Hb]); [by rewrite E1 in Hb|done]. }
    split; [split; [by intros [? ?]|by intros [? _]%Forall_cons]|]. split; [intros _|done]. exists [], d, rows. done.
  - destruct (open_coll d (fs d) L) as [La ra]. cbn [snd] in E. subst ra. cbn [snd]. split; [split; [by intros [? ?]|by intros [? _]%Forall_cons]|]. split; [done|].
    intros ([|y r1] & x & r2 & Er & H1 & H2); cbn [app] in Er; injection Er as <- Er; [done|]. apply Forall_cons in H1 as [H1 _]. done.
Qed.

(** Open succeeds exactly if no call fails and no store of its collections is
    locked.  Instead of an error it panics exactly if the first collection with a
    problem has one with the store of vectors only. *)
Theorem C114_open_exact : forall rows tr w fs, NoDup rows -> wrun (boot rows) tr w ->
  ((wstep w (WOpen false fs)).2 = ROk tt <-> Forall (fine (w_locks w) fs) (w_rows w)) /\
  ((wstep w (WOpen false fs)).2 = RPan <-> exists r1 d r2, w_rows w = r1 ++ d :: r2 /\ Forall (fine (w_locks w) fs) r1 /\ blind (w_locks w) fs d).
Proof.
  intros rows tr w fs Hn Hr. pose proof (run_ok _ _ _ Hr (boot_ok _ Hn)) as Hw. destruct (open_rows_exact (w_rows w) fs (w_locks w) ∅ (wo_rows _ Hw)) as [H1 H2].
  cbn [wstep]. destruct (open_rows (w_rows w) fs (w_locks w) ∅) as [L [m|e|]]; cbn [snd] in *; rewrite <- H1, <- H2.
  - split; (split; [|done]); [intros _; by eexists|done].
  - split; [split; [done|by intros [? ?]]|done].
  - split; [split; [done|by intros [? ?]]|done].
Qed.
Print Assumptions C114_open_exact.
(** A table of three collections; the vectors of the second cannot be opened. *)
Example C114_case : (wstep (boot ["a"; "b"; "c"]%string) (WOpen false (fails_at "b"%string (OFault false true false false) of_none))).2 = RPan /\
  (wstep (boot ["a"; "b"; "c"]%string) (WOpen false no_of)).2 = ROk tt.
Proof. split; vm_compute; reflexivity. Qed.

(** The database can be opened again, without a failure, in the same process: false
    after a Close that failed (it panics), and after an Open that failed. *)
Theorem C114_reopen_panics_refuted : exists tr w, wrun (boot []) tr w /\ Forall (fun er => exists i order fs, er.2 = ROk tt \/ er.1 = WClose i false order fs /\ er.2 = RErr XFault) tr /\
  (wstep w (WOpen false no_of)).2 = RPan.
Proof.
  exists (results (boot []) (two ++ [bad_close])), (after (boot []) (two ++ [bad_close])). split; [apply run_by; can_all|]. split; [|vm_compute; reflexivity].
  repeat (apply Forall_cons; split; [exists 0, ["b"; "a"]%string, (fails_at "b"%string (CFault false true false) cf_none); first [left; vm_compute; reflexivity|right; split; [reflexivity|vm_compute; reflexivity]]|]). constructor.
Qed.
Print Assumptions C114_reopen_panics_refuted.
Theorem C114_locked_refuted : exists fs, wrun (boot ["a"; "b"]%string) [(WOpen false fs, RErr XFault)] (wstep (boot ["a"; "b"]%string) (WOpen false fs)).1 /\
  w_dbs (wstep (boot ["a"; "b"]%string) (WOpen false fs)).1 = [] /\
  (wstep (wstep (boot ["a"; "b"]%string) (WOpen false fs)).1 (WOpen false no_of)).2 = RErr XLocked.
Proof.
  exists (fails_at "b"%string (OFault false false true false) of_none). split; [|split; vm_compute; reflexivity].
  econstructor; [exact I|vm_compute; reflexivity|]. vm_compute. constructor.
Qed.
Print Assumptions C114_locked_refuted.

(** Missing: an earlier Open or Create of the process that failed inside
    newCollection, and a database that is not closed.  Otherwise Open succeeds. *)
Definition tidy (er : wev * rout unit) : Prop :=
  match er.1 with WOpen false _ | WCreate _ _ false _ => er.2 <> RErr XFault /\ er.2 <> RErr XLocked | _ => True end.
Definition clean (w : world) : Prop := forall l, l ∈ w_locks w -> exists D, D ∈ w_dbs w /\ held D l.
Lemma gave_clean w L1 i D D1 : wok w -> clean w -> w_dbs w !! i = Some D -> gave (rd_colls D) (rd_colls D1) (w_locks w) L1 -> clean (World (w_rows w) L1 (<[i := D1]> (w_dbs w))).
Proof.
  intros Hw Hc Hi [_ Hg] l. cbn [w_locks w_dbs]. intros [Hl Hx]%Hg. destruct (Hc l Hl) as (D' & [j Hj]%elem_of_list_lookup & Hh). destruct (decide (i = j)) as [<-|Hij].
  - rewrite Hi in Hj. injection Hj as <-. exists D1. split; [|by apply Hx]. eapply elem_of_list_lookup_2, list_lookup_insert. by eapply lookup_lt_Some.
  - exists D'. split; [|done]. apply elem_of_list_lookup_2 with j. by rewrite list_lookup_insert_ne.
Qed.
Lemma open_coll_err d f L e : (open_coll d f L).2 = RErr e -> e = XFault \/ e = XLocked.
Proof. unfold open_coll, open_store. repeat case_match; intros; simplify_eq/=; auto. Qed.
Lemma open_rows_err rows fs e : forall L m, (open_rows rows fs L m).2 = RErr e -> e = XFault \/ e = XLocked.
Proof.
  induction rows as [|d rows IH]; intros L m; cbn [open_rows]; [done|]. pose proof (open_coll_err d (fs d) L) as He. destruct (open_coll d (fs d) L) as [La [c|e'|]]; cbn [snd] in *; [apply IH|intros [= ->]; by apply He|done].
Qed.
Lemma clean_step w e w1 r : wok w -> can w e -> wstep w e = (w1, r) -> tidy (e, r) -> clean w -> clean w1.
Proof.
  intros Hw Hcan E Ht Hc. assert (Hboot : forall rows, clean (boot rows)). { intros rows l H. by apply elem_of_empty in H. }
  destruct e as [fm fs|j fm order fs|j d fm f|j d f|X|]; cbn [wstep] in E; unfold tidy in Ht; cbn [fst snd] in Ht.
  - destruct fm; [by injection E as <- <-|]. pose proof (open_rows_err (w_rows w) fs) as Herr. destruct (open_rows _ _ _ _) as [L [m|e|]] eqn:Eo; injection E as <- <-; [| |done].
    + destruct (open_rows_ok _ _ _ _ _ _ Eo) as (_ & _ & _ & S4 & _).
      { intros d c Hd. by rewrite lookup_empty in Hd. }
      { intros l (c & Hd & _). by rewrite lookup_empty in Hd. }
      intros l. cbn [w_locks w_dbs]. intros [Hl|Hl]%S4; [destruct (Hc l Hl) as (D & HD & Hh); exists D; split; [apply elem_of_app; by left|done]|].
      eexists. split; [apply elem_of_app; right; by apply elem_of_list_singleton|done].
    + exfalso. destruct (Herr e (w_locks w) ∅) as [-> | ->]; [by rewrite Eo|by destruct Ht..].
  - destruct (w_dbs w !! j) as [D|] eqn:Hj; [|by injection E as <- <-]. destruct (close_db fm order fs D (w_locks w)) as [[L D1] ra] eqn:Ea. injection E as <- <-.
    eapply gave_clean; [done..|]. by destruct (close_db_spec _ _ _ _ _ _ _ _ _ Hw Hj (Hcan _ Hj) Ea) as (_ & Hg & _).
  - destruct (w_dbs w !! j) as [D|] eqn:Hj; [|by injection E as <- <-].
    destruct (rd_closed D); [by injection E as <- <-|]. destruct (decide _) as [|Hnd]; [by injection E as <- <-|].
    destruct (negb _); [by injection E as <- <-|]. destruct fm; [by injection E as <- <-|].
    destruct (decide _); [by injection E as <- <-|]. pose proof (open_coll_err d f (w_locks w)) as Herr.
    destruct (open_coll d f (w_locks w)) as [L [c|e|]] eqn:Ea; injection E as <- <-; [| |done].
    2:{ exfalso. destruct (Herr e eq_refl) as [-> | ->]; by destruct Ht. }
    apply open_coll_ok in Ea as (_ & -> & _ & _ & ->). intros l. cbn [w_locks w_dbs]. intros Hl.
    match goal with |- context [<[j := ?x]> (w_dbs w)] => set (D1 := x) end.
    assert (HD1 : D1 ∈ <[j := D1]> (w_dbs w)). { eapply elem_of_list_lookup_2, list_lookup_insert. by eapply lookup_lt_Some. }
    assert (l = (d, false) \/ l = (d, true) \/ l ∈ w_locks w) as [-> |[-> |Hl']] by (clear -Hl; set_solver).
    + exists D1. split; [exact HD1|]. eexists. split; [apply lookup_insert|reflexivity].
    + exists D1. split; [exact HD1|]. eexists. split; [apply lookup_insert|reflexivity].
    + destruct (Hc l Hl') as (D' & [k Hk]%elem_of_list_lookup & Hh). destruct (decide (j = k)) as [<-|Hjk].
      * rewrite Hj in Hk. injection Hk as <-. exists D1. split; [exact HD1|]. destruct Hh as (c & Hcc & Hb). exists c. split; [|done]. unfold D1. cbn [rd_colls]. rewrite lookup_insert_ne; [done|].
        intros E'. apply Hnd. rewrite E'. by eapply elem_of_dom_2.
      * exists D'. split; [|done]. apply elem_of_list_lookup_2 with k. by rewrite list_lookup_insert_ne.
  - destruct (w_dbs w !! j) as [D|] eqn:Hj; [|by injection E as <- <-]. destruct (rd_colls D !! d) as [c|] eqn:Hd; [|by injection E as <- <-].
    assert (HD : D ∈ w_dbs w) by (by eapply elem_of_list_lookup_2).
    destruct (close_coll d f c (w_locks w)) as [[L c1] ra] eqn:Ea. injection E as <- <-. eapply gave_clean; [done..|]. cbn [rd_colls]. eapply gave_close; [done| |done]. by eapply (wo_shape _ Hw).
  - injection E as <- <-. intros l. cbn [w_locks w_dbs]. intros [Hl _]%elem_of_difference. by apply Hc.
  - by injection E as <- <-.
Qed.
Theorem C114_reopen_partial : forall rows tr w, NoDup rows -> wrun (boot rows) tr w -> Forall tidy tr -> Forall (fun D => rd_closed D = true) (w_dbs w) ->
  (wstep w (WOpen false no_of)).2 = ROk tt.
Proof.
  intros rows tr w Hn Hr Ht Hcl. pose proof (run_ok _ _ _ Hr (boot_ok _ Hn)) as Hw. eapply C114_open_exact; [exact Hn|exact Hr|].
  assert (Hclean : clean w).
  { assert (H0 : clean (boot rows)) by (intros l H; by apply elem_of_empty in H). pose proof (boot_ok rows Hn) as Hw0. clear Hn Hcl Hw. induction Hr as [|w e w1 r tr w2 Hc E Hr IH]; [done|].
    apply Forall_cons in Ht as [Ht1 Ht]. apply IH; [done|by eapply clean_step|by eapply step_ok]. }
  assert (Hno : forall l, l ∉ w_locks w).
  { intros l Hl. destruct (Hclean l Hl) as (D & HD & c & Hc & Hb). rewrite Forall_forall in Hcl. pose proof (wo_closed _ Hw _ HD (Hcl _ HD) _ _ Hc) as Hx.
    destruct (wo_shape _ Hw _ HD _ _ Hc) as [_ Hs]. destruct (Hs Hx) as (_ & H1 & H2). destruct l.2; congruence. }
  apply Forall_forall. intros d _. unfold fine. split; [reflexivity|]. split; apply Hno.
Qed.
Print Assumptions C114_reopen_partial.
(** Two databases are opened and closed one after the other. *)
Example C114_reopen_case : let evs := two ++ [closing; WOpen false no_of; WClose 1 false ["a"; "b"]%string no_cf] in
  cans (boot []) evs /\ Forall tidy (results (boot []) evs) /\ Forall (fun D => rd_closed D = true) (w_dbs (after (boot []) evs)) /\ length (w_dbs (after (boot []) evs)) = 2.
Proof.
  cbv zeta. split; [can_all|]. split; [|split; [vm_compute; repeat constructor|vm_compute; reflexivity]].
  repeat (apply Forall_cons; split; [first [exact I|vm_compute; by split]|]). constructor.
Qed.
