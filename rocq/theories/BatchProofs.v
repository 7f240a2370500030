(** The workers of a batch, any number of them under any schedule, with vectors
    of one dimension: none panics, none waits for ever, and the index they leave
    is well formed.  The ids are handed out by the shared counter while the
    workers run, so what a worker owns grows as it goes. *)
From stdpp Require Import relations sorting.
From Verif Require Import GoBase FloatModel HeapModel ProgModel StateModel WalModel HnswModel StoreModel CollModel CallModel
  ProofBase CodecProofs CodecSpec LogProofs FloatProofs HeapProofs WpProofs HnswProofs IndexProofs StepProofs SeqLog IndexHist SimProofs
  StoreProofs CallProofs HistProofs WalProofs StoreView RestoreProofs ParLog ParHist AlignProofs CollWf.
Open Scope nat_scope.
Local Arguments id_key _ : simpl never.
Local Arguments le_put _ _ : simpl never.

(** Bookkeeping of a worker: its number, the ids it has fetched, and how many
    more it will fetch. *)
Record bl := BL { b_t : nat; b_own : gset N; b_bud : nat }.
Lemma sum_blcons (y : bl) xs : sum_list (b_bud <$> y :: xs) = b_bud y + sum_list (b_bud <$> xs). Proof. done. Qed.
Lemma sum_bl_insert xs i x x' : xs !! i = Some x -> sum_list (b_bud <$> <[i := x']> xs) + b_bud x = sum_list (b_bud <$> xs) + b_bud x'.
Proof.
  revert i. induction xs as [|y xs IH]; intros [|i] E; [done..| |].
  - injection E as ->. change (<[0 := x']> (x :: xs)) with (x' :: xs). rewrite !sum_blcons. lia.
  - change (<[S i := x']> (y :: xs)) with (y :: <[i := x']> xs). rewrite !sum_blcons. specialize (IH i E). lia.
Qed.
Lemma sum_bl_ge xs i x : xs !! i = Some x -> b_bud x <= sum_list (b_bud <$> xs).
Proof. revert i. induction xs as [|y xs IH]; intros [|i] E; [done..| |]; rewrite sum_blcons; [injection E as ->; lia|]. specialize (IH i E). lia. Qed.
Lemma sum_bl_two xs i j x y : i <> j -> xs !! i = Some x -> xs !! j = Some y -> b_bud x + b_bud y <= sum_list (b_bud <$> xs).
Proof.
  revert i j. induction xs as [|z xs IH]; intros [|i] [|j] Hne Hi Hj; try done; rewrite sum_blcons.
  - injection Hi as ->. pose proof (sum_bl_ge xs j y Hj). lia.
  - injection Hj as ->. pose proof (sum_bl_ge xs i x Hi). lia.
  - specialize (IH i j ltac:(congruence) Hi Hj). lia.
Qed.

Section batch.
  Context (C : cparams) (n B : nat) (strict : bool).
  Notation P := (cp_h C).
  Context (HP : params_ok P) (Hk : dim_ok (hp_dist P) n) (HB : B <= cp_fuel C) (HB64 : (N.of_nat B < 2 ^ 64)%N).
  Context (Hm : hp_m P < mMax0 P).
  Notation okd := (okd n).
  Notation U := (below B).
  Notation Inv := (Inv P true okd U).

  (** What is stored: the vector has the dimension; when [strict], the record
      of the properties exists and both records are within the store's limit. *)
  Definition storable (o : object) : Prop :=
    length (vec_or_nil o) = n /\
    (strict = true -> exists ob, ser_props (cp_json C) (o_props o) = Val ob /\ (N.of_nat (length ob) <= cp_maxval C)%N /\ fits C o).

  (** What every worker may count on at all times. *)
  Record bJ (bud : nat) (s : st) : Prop := MkBJ {
    bj_ids : forall id, is_Some (nodes s !! id) -> (id < cnt s)%N;
    bj_open : closed s = false;
    bj_room : (cnt s + N.of_nat (bud + length (chan s)) <= N.of_nat B)%N;
    bj_chan : Forall (fun ol => storable (fst ol)) (chan s)
  }.
  Definition bE (x : bl) (s s1 : st) : Prop :=
    hrely P true okd U (b_t x) (b_own x) s s1 /\ (bJ (b_bud x) s -> bJ (b_bud x) s1) /\ length (chan s1) <= length (chan s) /\ (cnt s <= cnt s1)%N.
  (** The steps that do not touch the index. *)
  Definition idx_same (s s1 : st) : Prop := nodes s1 = nodes s /\ ep s1 = ep s /\ maxl s1 = maxl s /\ once s1 = once s /\ closed s1 = closed s.
  Inductive bGU (x : bl) (s : st) : bl -> st -> Prop :=
  | GIndex s1 : Inv s -> hguar P true okd U (b_t x) (b_own x) s s1 -> bGU x s x s1
  | GStore s1 : idx_same s s1 -> cnt s1 = cnt s -> chan s1 = chan s -> bGU x s x s1
  | GFetch b s1 : idx_same s s1 -> b_bud x = S b -> cnt s1 = (cnt s + 1)%N -> chan s1 = chan s -> bGU x s (BL (b_t x) ({[cnt s]} ∪ b_own x) b) s1
  | GRecv o s1 : idx_same s s1 -> cnt s1 = cnt s -> chan s = o :: chan s1 -> bGU x s (BL (b_t x) (b_own x) (S (b_bud x))) s1.
  Definition bB (x : bl) (s : st) : Prop := hblk (b_t x) s.

  (** The whole: workers are numbered from [off], the batch started in [s0]. *)
  Context (off : nat) (s0 : st).
  Record bW (xs : list bl) (s : st) : Prop := MkBW {
    bw_inv : Inv s;
    bw_tid : forall i x, xs !! i = Some x -> b_t x = off + i;
    bw_dis : forall i j x y, i <> j -> xs !! i = Some x -> xs !! j = Some y -> b_own x ## b_own y;
    bw_own : forall i x id, xs !! i = Some x -> id ∈ b_own x -> (id < cnt s)%N;
    bw_lock : forall m v t, nodes s !! m = Some v -> v_lock v = Some t -> off <= t < off + length xs;
    bw_J : bJ (sum_list (b_bud <$> xs)) s;
    bw_ext : ext s0 s
  }.

  Lemma bE_refl x s : bE x s s. Proof using. clear HP Hk HB HB64 Hm. split; [apply hrely_refl|]. split_and!; [done|lia|lia]. Qed.
  Lemma bE_trans x s1 s2 s3 : bE x s1 s2 -> bE x s2 s3 -> bE x s1 s3.
  Proof using. clear HP Hk HB HB64 Hm. intros (H1 & J1 & L1 & C1) (H2 & J2 & L2 & C2). split; [by eapply hrely_trans|]. split_and!; [auto|lia|lia]. Qed.
  Lemma bE_h x s s1 : bE x s s1 -> hrely P true okd U (b_t x) (b_own x) s s1.
  Proof using. by intros [? _]. Qed.
  Lemma bGU_h x s s1 : Inv s -> hguar P true okd U (b_t x) (b_own x) s s1 -> bGU x s x s1.
  Proof using. apply GIndex. Qed.
  Lemma bB_h x s : Inv s -> hblk (b_t x) s -> bB x s.
  Proof using. by intros _. Qed.
  Lemma b_dist v1 v2 : okd v1 -> okd v2 -> exists d, dist P v1 v2 = Val d.
  Proof using Hk. intros H1 H2. by eapply dist_total. Qed.
  Lemma b_deg : hp_m P + slack true <= mMax0 P.
  Proof using Hm. clear HB HB64. unfold slack. lia. Qed.

  Lemma idx_same_rely t own s s1 : idx_same s s1 -> hrely P true okd U t own s s1.
  Proof using.
    intros (E1 & E2 & E3 & E4 & _). split.
    - apply Inv_same; try done. by rewrite E4.
    - by apply ext_same.
    - intros id _. by rewrite E1.
    - by apply lockrel_same.
    - done.
  Qed.

  Lemma bW_step xs s i x x' s' :
    bW xs s -> xs !! i = Some x -> bGU x s x' s' ->
    bW (<[i := x']> xs) s' /\ forall j y, j <> i -> xs !! j = Some y -> bE y s s'.
  Proof using.
    clear HP Hk HB HB64 Hm. intros [WI Wt Wd Wo Wl WJ WX] Hx Hg.
    assert (Hlen : i < length xs) by by eapply lookup_lt_Some.
    (* the steps that leave the index alone *)
    assert (Hother : forall (own' : gset N) (bud' : nat),
      idx_same s s' -> x' = BL (b_t x) own' bud' ->
      (forall id, id ∈ own' -> id ∈ b_own x \/ id = cnt s) -> (cnt s <= cnt s')%N -> (own' ⊆ b_own x \/ (cnt s < cnt s')%N) ->
      (forall b, bJ (b_bud x + b) s -> bJ (bud' + b) s') -> (b_bud x + length (chan s) + N.to_nat (cnt s) = bud' + length (chan s') + N.to_nat (cnt s')) ->
      (forall b, bJ b s -> (cnt s' + N.of_nat (b + length (chan s')) <= N.of_nat B)%N -> bJ b s') ->
      length (chan s') <= length (chan s) ->
      bW (<[i := x']> xs) s' /\ forall j y, j <> i -> xs !! j = Some y -> bE y s s').
    { intros own' bud' Hid -> Hown Hcnt Hfr HJ Hsum HJ2 Hch.
      pose proof (sum_bl_insert xs i x (BL (b_t x) own' bud') Hx) as Hs. cbn [b_bud] in Hs.
      pose proof (sum_bl_ge _ _ _ Hx) as Hge. pose proof Hid as (En & Ee & Em & Eo & Ec).
      assert (HW' : bW (<[i := BL (b_t x) own' bud']> xs) s').
      { split.
        - eapply Inv_same; [..|exact WI]; try done. by rewrite Eo.
        - intros j y Hj. apply lookup_ins_cases in Hj as [[-> ->]|[Hne Hj]]; [by apply (Wt i x)|by apply Wt].
        - assert (Hio : forall j y, i <> j -> xs !! j = Some y -> own' ## b_own y).
          { intros j y Hne Hy id H1 H2. destruct (Hown id H1) as [?| ->]; [by eapply (Wd i j)|]. pose proof (Wo _ _ _ Hy H2). lia. }
          intros j1 j2 y1 y2 Hne H1 H2.
          apply lookup_ins_cases in H1 as [[-> ->]|[Hn1 H1]]; apply lookup_ins_cases in H2 as [[-> ->]|[Hn2 H2]]; [done| | |by eapply (Wd j1 j2)].
          + by apply (Hio j2).
          + symmetry. by apply (Hio j1).
        - intros j y id Hj Hin. apply lookup_ins_cases in Hj as [[-> ->]|[Hne Hj]].
          + cbn [b_own] in Hin. destruct Hfr as [Hsub|Hlt].
            * eapply N.lt_le_trans; [|exact Hcnt]. eapply Wo; [exact Hx|]. by apply Hsub.
            * destruct (Hown id Hin) as [Hin'| ->]; [|done]. eapply N.lt_le_trans; [|exact Hcnt]. by eapply Wo.
          + eapply N.lt_le_trans; [|exact Hcnt]. by eapply Wo.
        - rewrite En, insert_length. exact Wl.
        - replace (sum_list (b_bud <$> <[i:=BL (b_t x) own' bud']> xs)) with (bud' + (sum_list (b_bud <$> xs) - b_bud x)) by lia.
          apply HJ. by replace (b_bud x + (sum_list (b_bud <$> xs) - b_bud x)) with (sum_list (b_bud <$> xs)) by lia.
        - eapply ext_trans; [exact WX|]. by apply ext_same. }
      split; [done|]. intros j y Hne Hy. split; [by apply idx_same_rely|]. split; [|by split].
      intros Jy. apply HJ2; [done|]. pose proof (sum_bl_two _ _ _ _ _ Hne Hy Hx) as H2. pose proof (bj_room _ _ (bw_J _ _ HW')) as Hr.
      lia. }
    destruct Hg as [s' HI [GI GX GO GL GF]|s' Hid Hc Hch|b s' Hid Hb Hc Hch|o s' Hid Hc Hch].
    - rewrite list_insert_id by done. destruct GF as (F1 & _ & F3 & _ & _ & _ & F7 & F8).
      assert (HJ : forall b, bJ b s -> bJ b s').
      { intros b [J1 J2 J3 J4]. split; [|by rewrite F8|by rewrite F3, F7|by rewrite F7]. intros id Hid. rewrite F3.
        destruct (nodes s !! id) as [v|] eqn:E; [apply J1; by eexists|]. eapply Wo; [exact Hx|]. by apply GO. }
      split.
      + split; try done.
        * intros j y id Hy Hin. rewrite F3. by eapply Wo.
        * intros m v t Hn Hl. destruct (decide (t = b_t x)) as [->|Hne].
          -- rewrite (Wt _ _ Hx). lia.
          -- destruct (GL t Hne) as [_ Hbk]. destruct (Hbk m v Hn Hl) as (v0 & Hn0 & Hl0). by eapply Wl.
        * by apply HJ.
        * by eapply ext_trans.
      + intros j y Hne Hy. split; [|split_and!; [apply HJ|by rewrite F7|by rewrite F3]]. split; try done.
        * intros id Ho Hn. destruct (nodes s' !! id) as [v|] eqn:E; [|done]. exfalso.
          assert (id ∈ b_own x) as Hox by (apply GO; [done|by eexists]). by eapply (Wd j i y x).
        * apply GL. rewrite (Wt _ _ Hx), (Wt _ _ Hy). lia.
    - destruct x as [t own b]. pose proof Hid as (En & _ & _ & _ & Ec).
      assert (HJ : forall b, bJ b s -> bJ b s').
      { intros b' [J1 J2 J3 J4]. split; rewrite ?En, ?Hc, ?Hch, ?Ec; done. }
      eapply (Hother own b); try done; cbn [b_bud b_own] in *; rewrite ?Hc, ?Hch; try done; [by left|by left|by intros b' J; apply HJ|by intros b' J _; apply HJ].
    - pose proof Hid as (En & _ & _ & _ & Ec). eapply (Hother ({[cnt s]} ∪ b_own x) b); try done; rewrite ?Hc, ?Hch; try lia.
      + intros id. rewrite elem_of_union, elem_of_singleton. tauto.
      + intros b' [J1 J2 J3 J4]. split; rewrite ?En, ?Hc, ?Hch, ?Ec; try done; [intros id Hi; specialize (J1 _ Hi); lia|lia].
      + intros b' [J1 J2 J3 J4] Hr. split; rewrite ?En, ?Hc, ?Hch, ?Ec; try done; intros id Hi; specialize (J1 _ Hi); lia.
    - pose proof Hid as (En & _ & _ & _ & Ec). eapply (Hother (b_own x) (S (b_bud x))); try done; rewrite ?Hc, ?Hch; cbn [length]; try lia.
      + by left.
      + by left.
      + intros b' [J1 J2 J3 J4]. rewrite Hch in J3, J4. cbn [length] in J3. apply Forall_cons in J4 as [_ J4]. split; rewrite ?En, ?Hc, ?Ec; try done. lia.
      + intros b' [J1 J2 J3 J4] Hr. rewrite Hch in J4. apply Forall_cons in J4 as [_ J4]. split; rewrite ?En, ?Hc, ?Ec; done.
  Qed.

  Notation bwp := (wp bE bGU bB).

  (** What a worker knows between its steps. *)
  Definition bI (c : nat) (x : bl) (s : st) : Prop := bJ (b_bud x) s /\ (forall id, id ∈ b_own x -> (id < cnt s)%N) /\ length (chan s) <= c.
  Lemma bI_E c x s s1 : bI c x s -> bE x s s1 -> bI c x s1.
  Proof using. clear HP Hk HB HB64 Hm. intros (H1 & H2 & H3) (_ & HJ & Hl & Hc). split_and!; [auto| |lia]. intros id Hid. specialize (H2 id Hid). lia. Qed.
  Lemma bI_GU c x s x' s1 : bI c x s -> bGU x s x' s1 -> bI c x' s1.
  Proof using.
    clear HP Hk HB HB64 Hm. intros ([J1 J2 J3 J4] & Ho & Hl) Hg.
    inversion Hg as [s2 HI [GI GX GO GL GF]|s2 (En & _ & _ & _ & Ec) Hc Hch|b s2 (En & _ & _ & _ & Ec) Hb Hc Hch|o s2 (En & _ & _ & _ & Ec) Hc Hch]; subst; cbn [b_bud b_own].
    - destruct GF as (F1 & _ & F3 & _ & _ & _ & F7 & F8). split_and!; rewrite ?F3, ?F7; try done. split; rewrite ?F3, ?F7, ?F8; try done.
      intros id Hid. destruct (nodes s !! id) as [v|] eqn:E; [apply J1; by eexists|]. by apply Ho, GO.
    - split_and!; rewrite ?Hc, ?Hch; try done. split; rewrite ?En, ?Hc, ?Hch, ?Ec; done.
    - split_and!; rewrite ?Hc, ?Hch; try done.
      + split; rewrite ?En, ?Hc, ?Hch, ?Ec; try done; [intros id Hi; specialize (J1 _ Hi); lia|cbn [b_bud]; lia].
      + intros id. cbn [b_own]. rewrite elem_of_union, elem_of_singleton. intros [->|Hi]; [lia|]. specialize (Ho _ Hi). lia.
    - rewrite Hch in J3, J4, Hl. cbn [length] in *. apply Forall_cons in J4 as [_ J4]. split_and!; rewrite ?Hc; [|done|lia].
      split; rewrite ?En, ?Hc, ?Ec; try done. cbn [b_bud]. lia.
  Qed.
  Lemma bwp_keep {A} c (p : prog st A) Q x s : bwp p Q x s -> bI c x s -> bwp p (fun x r s => Q x r s /\ bI c x s) x s.
  Proof using.
    clear HP Hk HB HB64 Hm. revert x s. induction p as [r|f IH] using prog_ind'; intros x s; cbn [wp]; intros Hw HI s1 He.
    - split; [by apply Hw|by eapply bI_E].
    - specialize (Hw s1 He). destruct (f s1) as [[s2 p']|] eqn:Ef; [|done]. destruct Hw as (x' & Hg & Hw). exists x'. split; [done|].
      eapply IH; [exact Ef|exact Hw|]. eapply bI_GU; [|exact Hg]. by eapply bI_E.
  Qed.

  Lemma bGU_ext x s x' s1 : bGU x s x' s1 -> ext s s1.
  Proof using. intros Hg. inversion Hg as [s2 HI HG|s2 (En & _) Hc Hch|b s2 (En & _) Hb Hc Hch|o s2 (En & _) Hc Hch]; subst; [by apply HG|by apply ext_same..]. Qed.
  Lemma bwp_ext {A} sa (p : prog st A) Q x s : bwp p Q x s -> ext sa s -> bwp p (fun x r s => Q x r s /\ ext sa s) x s.
  Proof using.
    clear HP Hk HB HB64 Hm. revert x s. induction p as [r|f IH] using prog_ind'; intros x s; cbn [wp]; intros Hw HI s1 He.
    - split; [by apply Hw|]. eapply ext_trans; [done|]. by eapply rely_ext; apply He.
    - specialize (Hw s1 He). destruct (f s1) as [[s2 p']|] eqn:Ef; [|done]. destruct Hw as (x' & Hg & Hw). exists x'. split; [done|].
      eapply IH; [exact Ef|exact Hw|]. eapply ext_trans; [|by eapply bGU_ext]. eapply ext_trans; [done|]. by eapply rely_ext; apply He.
  Qed.

  Definition bK (c : nat) (x : bl) (s : st) : Prop := Inv s /\ free (b_t x) s /\ bI c x s.
  Lemma bK_E c x s s1 : bK c x s -> bE x s s1 -> bK c x s1.
  Proof using. intros (H1 & H2 & H3) He. split_and!; [|eapply lockrel_free; [|done]|by eapply bI_E]; [|by apply He]. by eapply rely_inv; [apply He|]. Qed.
  (** Steps that leave the index alone, seen by the worker itself. *)
  Lemma bK_idx c x s x' s1 : bK c x s -> bGU x s x' s1 -> idx_same s s1 -> b_t x' = b_t x -> bK c x' s1.
  Proof using.
    intros (H1 & H2 & H3) Hg (En & Ee & Em & Eo & Ec) Ht. split_and!; [|unfold free; by rewrite En, Ht|by eapply bI_GU].
    eapply Inv_same; [..|exact H1]; try done. by rewrite Eo.
  Qed.
  Definition present_in (s : st) (o : object) : Prop := is_Some (nodes s !! o_id o).
  Lemma present_ext' s s1 o : ext s s1 -> present_in s o -> present_in s1 o.
  Proof using. intros H [v Hv]. destruct (H _ _ Hv) as (v1 & Hv1 & _). by eexists. Qed.
  Lemma present_E x s s1 o : bE x s s1 -> present_in s o -> present_in s1 o.
  Proof using. intros (H & _). by eapply present_ext', rely_ext. Qed.
  (** Where a worker ends: no panic; a value if everything can be stored. *)
  Definition bpost {A} (c : nat) (Q : A -> st -> Prop) (x : bl) (r : out A) (s : st) : Prop :=
    bK c x s /\ no_pan r /\ (strict = true -> exists a, r = Val a) /\ forall a, r = Val a -> Q a s.
  Definition stored_as (o : object) (o' : object) (s : st) : Prop := present_in s o' /\ o_props o' = o_props o /\ o_vec o' = o_vec o.

  Lemma bwp_insert_one c t own bu level o s :
    storable o -> bK c (BL t own (S bu)) s ->
    bwp (insert_one C t level o) (fun x' r s' => bpost c (stored_as o) x' r s' /\ b_t x' = t /\ b_bud x' = bu) (BL t own (S bu)) s.
  Proof using HP Hk HB HB64 Hm.
    intros [Hdim Hst] HK. unfold insert_one. apply (wp_bind _ _ _ bE_refl). unfold fetch_and_inc.
    apply wp_act. intros s1 He1. pose proof (bK_E _ _ _ _ HK He1) as HK1. clear HK He1 s.
    pose proof HK1 as (_ & _ & [J1 J2 J3 J4] & _). cbn [b_t b_bud] in *.
    assert (Hcu : u64 (cnt s1 + 1) = (cnt s1 + 1)%N) by (apply u64_small; lia).
    cbn zeta. rewrite J2. cbn [fst snd]. set (id := cnt s1) in *.
    set (s2 := set_cnt _ _ s1). set (x2 := BL t ({[id]} ∪ own) bu). exists x2.
    assert (Hg2 : bGU (BL t own (S bu)) s1 x2 s2) by (by apply (GFetch (BL t own (S bu)) s1 bu)).
    split; [done|]. intros s3 He3.
    assert (HK2 : bK c x2 s2) by (by eapply bK_idx).
    assert (Hid2 : nodes s2 !! id = None).
    { destruct (nodes s2 !! id) as [v|] eqn:E; [|done]. specialize (J1 id). change (nodes s2) with (nodes s1) in E. rewrite E in J1. specialize (J1 ltac:(by eexists)). lia. }
    assert (HidU : id ∈ U) by (apply (below_in B); lia).
    clearbody s2. clear HK1 J1 J2 J3 J4 Hcu Hg2. clearbody id. clear s1.
    set (KS := fun s' => bK c x2 s' /\ nodes s' !! id = None).
    assert (HKS : forall a b, KS a -> bE x2 a b -> KS b).
    { intros a b (K1 & K2) He. split; [by eapply bK_E|]. eapply rely_own; [apply bE_h, He| |done]. cbn. set_solver. }
    assert (H3 : KS s3) by (by eapply HKS; [|exact He3]). clear HK2 Hid2 He3 s2.
    assert (Hstore : forall a b, KS a -> idx_same a b -> cnt b = cnt a -> chan b = chan a -> KS b).
    { intros a b (K1 & K3) Hi Hc Hch. split; [|destruct Hi as (-> & _); done]. eapply bK_idx; [exact K1|by apply GStore|done|done]. }
    (* an error ends the call *)
    assert (Hbad : forall s' e, KS s' -> strict = false -> bpost c (stored_as o) x2 (Err e) s' /\ b_t x2 = t /\ b_bud x2 = bu).
    { intros s' e (K1 & K2) Hs. split_and!; [|done..]. split_and!; [done|done|by rewrite Hs|done]. }
    apply (wp_bind _ _ _ bE_refl). unfold put_object. cbn [o_props o_id]. change (vec_or_nil (Object id (o_props o) (o_vec o))) with (vec_or_nil o).
    apply (wp_bind _ _ _ bE_refl), wp_done. intros s4 He4. pose proof (HKS _ _ H3 He4) as H4. clear H3 He4 s3.
    pose proof (ser_props_no_pan C (o_props o)) as Hsp.
    destruct (ser_props (cp_json C) (o_props o)) as [ob|e|z] eqn:Eob; [| |by destruct (Hsp z)].
    2: { apply Hbad; [done|]. destruct strict; [|done]. by destruct (Hst eq_refl) as (? & ? & _). }
    apply (wp_bind _ _ _ bE_refl), wp_done. intros s5 He5. pose proof (HKS _ _ H4 He5) as H5. clear H4 He5 s4.
    destruct (ser_vec (vec_or_nil o)) as [vb|e|z] eqn:Es; [|by rewrite ser_vec_eq in Es..].
    apply (wp_bind _ _ _ bE_refl), wp_act. intros s6 He6. pose proof (HKS _ _ H5 He6) as H6. clear H5 He6 s5. unfold bc_put at 1 2 3 4.
    exists x2. destruct (cp_maxval C <? N.of_nat (length ob))%N eqn:Em1; cbn [fst snd].
    { split; [by apply GStore|]. intros s7 He7. apply Hbad; [by eapply HKS|]. apply N.ltb_lt in Em1. destruct strict; [|done].
      destruct (Hst eq_refl) as (ob' & [= <-] & ? & _). lia. }
    assert (Hcl6 : closed s6 = false) by (destruct H6 as ((_ & _ & [HJ6 _]) & _); exact (bj_open _ _ HJ6)). rewrite Hcl6. clear Hcl6. cbn [fst snd].
    split; [by apply GStore|]. intros s7 He7.
    assert (H7 : KS s7) by (eapply HKS; [|exact He7]; by eapply Hstore; [exact H6|..]). clear H6 He7 s6.
    apply wp_act. intros s8 He8. pose proof (HKS _ _ H7 He8) as H8. clear H7 He8 s7. unfold bc_put.
    exists x2. destruct (cp_maxval C <? N.of_nat (length vb))%N eqn:Em2; cbn [fst snd].
    { split; [by apply GStore|]. intros s9 He9. apply Hbad; [by eapply HKS|]. apply N.ltb_lt in Em2. destruct strict; [|done].
      destruct (Hst eq_refl) as (ob' & _ & _ & Hfit). unfold fits in Hfit. apply ser_vec_length in Es. unfold fvec, f32 in *. rewrite Es in Em2. lia. }
    assert (Hcl8 : closed s8 = false) by (destruct H8 as ((_ & _ & [HJ8 _]) & _); exact (bj_open _ _ HJ8)). rewrite Hcl8. clear Hcl8. cbn [fst snd].
    split; [by apply GStore|]. intros s9 He9.
    assert (H9 : KS s9) by (eapply HKS; [|exact He9]; by eapply Hstore; [exact H8|..]). clear H8 He9 s8.
    apply (wp_bind _ _ _ bE_refl). destruct H9 as ((K1 & K2 & K3) & K4).
    pose proof (wp_hnsw_insert P true okd U b_t b_own bE bGU bB bE_refl bE_trans bE_h bGU_h bB_h b_dist b_deg
      (cp_fuel C) level (vec_or_nil o) id x2 s9 s9 (pok_efc P HP) K1 (ext_refl s9) K2 Hdim ltac:(cbn; set_solver) HidU K4
      ltac:(etrans; [apply (below_size B)|exact HB])) as Hw.
    eapply wp_mono; [|eapply bwp_keep; [exact Hw|exact K3]]. intros x' r s' ((-> & HI' & _ & a & -> & Hf' & Hins) & HJ').
    apply wp_ret. intros s'' He''.
    assert (HK' : bK c x2 s') by done. pose proof (bK_E _ _ _ _ HK' He'') as HK''.
    split_and!; [|done|done]. split_and!; [done|done|by eexists|]. intros o' [= <-]. split_and!; [|done|done].
    eapply present_E; [exact He''|]. destruct Hins as (v & Hv & _). by eexists.
  Qed.

  (** What a worker returns: the objects it was given, in order, each in the index. *)
  Definition stored_all (os os' : list object) (s : st) : Prop := Forall2 (fun o o' => stored_as o o' s) os os'.
  Lemma stored_all_E x s s1 os os' : bE x s s1 -> stored_all os os' s -> stored_all os os' s1.
  Proof using. intros He Hs. eapply Forall2_impl; [exact Hs|]. intros o o' (H1 & H2). split; [by eapply present_E|done]. Qed.

  Lemma bwp_worker c t os own bu s :
    Forall (fun ol => storable (fst ol)) os -> bK c (BL t own (length os + bu)) s ->
    bwp (worker C t os) (fun x' r s' => bpost c (stored_all os.*1) x' r s' /\ b_t x' = t) (BL t own (length os + bu)) s.
  Proof using HP Hk HB HB64 Hm.
    revert own s. induction os as [|[o level] os IH]; intros own s Hf HK; cbn [worker].
    { apply wp_ret. intros s1 He. split; [|done]. split_and!; [by eapply bK_E|done|by eexists|]. intros a [= <-]. constructor. }
    apply Forall_cons in Hf as [Hfo Hf]. apply (wp_bind _ _ _ bE_refl). cbn [length Nat.add] in *.
    eapply wp_mono; [|by apply bwp_insert_one]. intros x' r s' ((HK' & Hn & Hv & Hq) & Ht & Hb).
    destruct r as [o'|e|z]; [|split; [|done]; split_and!; try done; intros Hs; by destruct (Hv Hs)|by destruct (Hn z)].
    specialize (Hq o' eq_refl). destruct x' as [t' own' b']. cbn in Ht, Hb. subst t' b'. apply (wp_bind _ _ _ bE_refl).
    eapply wp_mono; [|eapply bwp_ext; [by apply IH|apply ext_refl]]. intros x'' r s'' (((HK'' & Hn'' & Hv'' & Hq'') & Ht'') & Hx'').
    assert (Hq2 : stored_as o o' s'') by (destruct Hq as (H1 & H2); split; [by eapply present_ext'|done]).
    destruct r as [os'|e|z]; [|split; [|done]; split_and!; try done; intros Hs; by destruct (Hv'' Hs)|by destruct (Hn'' z)].
    apply wp_ret. intros s3 He3. split; [|done]. split_and!; [by eapply bK_E|done|by eexists|]. intros a [= <-].
    eapply stored_all_E; [exact He3|]. constructor; [done|]. by apply Hq''.
  Qed.

  (** A worker of the other kind: it returns the objects it received. *)
  Lemma bwp_worker2 k t own s :
    bK k (BL t own 0) s ->
    bwp (worker2 C k t) (fun x' r s' => bpost k (fun os' s' => Forall (present_in s') os') x' r s' /\ b_t x' = t) (BL t own 0) s.
  Proof using HP Hk HB HB64 Hm.
    revert own s. induction k as [|k IH]; intros own s HK; cbn [worker2]; apply (wp_bind _ _ _ bE_refl); apply wp_act; intros s1 He1;
      pose proof (bK_E _ _ _ _ HK He1) as HK1; destruct (chan s1) as [|[o level] os] eqn:Ech; cbn [fst snd].
    1,3: exists (BL t own 0); (split; [by apply GStore|]); intros s2 He2; apply wp_ret; intros s3 He3; (split; [|done]);
      (split_and!; [eapply bK_E; [by eapply bK_E|exact He3]|done|by eexists|intros a [= <-]; constructor]).
    { destruct HK1 as (_ & _ & _ & _ & Hl). rewrite Ech in Hl. cbn in Hl. lia. }
    assert (Hso : storable o).
    { destruct HK1 as (_ & _ & [_ _ _ J4] & _). rewrite Ech in J4. by apply Forall_cons in J4 as [? _]. }
    set (x2 := BL t own 1). exists x2.
    assert (Hg : bGU (BL t own 0) s1 x2 (set_chan os s1)) by (by apply (GRecv (BL t own 0) s1 (o, level))).
    split; [done|]. intros s2 He2.
    assert (HK2 : bK k x2 s2).
    { eapply bK_E; [|exact He2]. assert (H2 : bK (S k) x2 (set_chan os s1)) by (by eapply bK_idx). destruct H2 as (H2 & H3 & H4 & H5 & H6).
      split_and!; try done. split_and!; try done. destruct HK1 as (_ & _ & _ & _ & Hl). rewrite Ech in Hl. cbn in *. lia. }
    clear HK1 Hg He2 Ech. apply (wp_bind _ _ _ bE_refl). eapply wp_mono; [|by apply (bwp_insert_one k t own 0)].
    intros x' r s' ((HK' & Hn & Hv & Hq) & Ht & Hb).
    assert (Hup : forall x s, bK k x s -> bK (S k) x s) by (intros y sy (Y1 & Y2 & Y3 & Y4 & Y5); split_and!; try done; split_and!; try done; lia).
    destruct r as [o'|e|z]; [|split; [|done]; split; [by apply Hup|]; split_and!; try done; intros Hs; by destruct (Hv Hs)|by destruct (Hn z)].
    specialize (Hq o' eq_refl). destruct x' as [t' own' b']. cbn in Ht, Hb. subst t' b'. apply (wp_bind _ _ _ bE_refl).
    eapply wp_mono; [|eapply bwp_ext; [by apply IH|apply ext_refl]]. intros x'' r s'' (((HK'' & Hn'' & Hv'' & Hq'') & Ht'') & Hx'').
    assert (Hq2 : present_in s'' o') by (by eapply present_ext'; [|apply Hq]).
    destruct r as [os'|e|z]; [|split; [|done]; split; [by apply Hup|]; split_and!; try done; intros Hs; by destruct (Hv'' Hs)|by destruct (Hn'' z)].
    apply wp_ret. intros s3 He3. split; [|done]. split_and!; [eapply bK_E; [by apply Hup|exact He3]|done|by eexists|]. intros a [= <-].
    specialize (Hq'' _ eq_refl). constructor; [by eapply present_E|]. eapply Forall_impl; [exact Hq''|]. intros o1. by eapply present_E.
  Qed.

  (** Every reachable configuration: well formed, and if some thread is not
      finished then some thread can make a step. *)
  Lemma batch_reach_wf {A} (Q : nat -> bl -> out A -> st -> Prop) xs (ts ts' : list (prog st A)) s s' :
    all_wp bE bGU bB bW Q xs ts s -> rtc mstep (s, ts) (s', ts') ->
    (forall i x r s, Q i x r s -> free (b_t x) s) ->
    exists xs', all_wp bE bGU bB bW Q xs' ts' s' /\ ((exists rs, ts' = Done <$> rs) \/ exists m, mstep (s', ts') m).
  Proof using.
    clear HP Hk HB HB64 Hm. intros Ha Hr HQ.
    destruct (all_wp_rtc bE bGU bB bE_refl bE_trans bW bW_step Q xs _ _ Hr Ha) as [xs' Ha'].
    cbn [fst snd] in Ha'. exists xs'. split; [done|].
    destruct Ha' as (Hlen & [HI Hid Hdis _ Hlk _ _] & Hall).
    assert (forall i p, ts' !! i = Some p -> (exists r, p = Done r) \/ (exists m, mstep (s', ts') m) \/
      (exists x, xs' !! i = Some x /\ bB x s')) as Hcase.
    { intros i p Hp. destruct p as [r|f]; [left; by eexists|right].
      destruct (lookup_lt_is_Some_2 xs' i) as [x Hx]; [rewrite Hlen; by eapply lookup_lt_Some|].
      pose proof (Hall i x _ Hx Hp s' (bE_refl x s')) as Hw.
      destruct (f s') as [[s2 p']|] eqn:Ef; [left; eexists; by econstructor|]. right. by exists x. }
    destruct (all_done_or_step ts') as [Hd|(i & f & Hp)]; [by left|right].
    destruct (Hcase i _ Hp) as [[r Hd]|[Hs|(x & Hx & Hfr & m & v & t' & Hn & Hl & Hne)]]; [done|done|].
    destruct (Hlk m v t' Hn Hl) as [Hlo Hlt]. assert (exists j, t' = off + j /\ j < length xs') as (j & -> & Hj) by (exists (t' - off); lia).
    destruct (lookup_lt_is_Some_2 xs' j Hj) as [y Hy]. rewrite Hlen in Hj.
    destruct (lookup_lt_is_Some_2 ts' j Hj) as [p' Hp'].
    destruct (Hcase j p' Hp') as [[r ->]|[Hs|(z & Hz & Hfz & _)]]; [|done|].
    - exfalso. pose proof (Hall j y _ Hy Hp' s' (bE_refl y s')) as Hq. apply HQ in Hq.
      rewrite (Hid _ _ Hy) in Hq. by apply (Hq m v).
    - exfalso. rewrite (Hid _ _ Hz) in Hfz. by apply (Hfz m v).
  Qed.
End batch.

Lemma Inv_conc P okv U s : Inv P false okv U s -> Inv P true okv U s.
Proof.
  intros [H1 H2 H3 H4 H5 H6 H7]. split; try done. intros m v l cs Hm Hl. specialize (H2 m v l cs Hm Hl). unfold degb, slack in *. lia.
Qed.

(** Where every live vertex has its object, every vector without an object has
    a delete record. *)
Lemma wop_apply_deleted o s s' id : wop_apply o s = Val s' -> id ∈ deleted s' -> o = WDelete id \/ id ∈ deleted s.
Proof.
  intros H. destruct o as [i l|i l|i l ns|i l m|i]; cbn [wop_apply] in H.
  1,2: apply Val_inj in H as <-; by right.
  1,2: destruct (nodes s !! i) as [v|]; [|done]; destruct (decide _); [|done]; apply Val_inj in H as <-; by right.
  apply Val_inj in H as <-. cbn. rewrite elem_of_union, elem_of_singleton. intros [->|Hi]; [by left|by right].
Qed.
Lemma wops_apply_deleted os : forall s s' id, wops_apply os s = Val s' -> id ∈ deleted s' -> WDelete id ∈ os \/ id ∈ deleted s.
Proof.
  induction os as [|o os IH]; intros s s' id; cbn [wops_apply].
  - intros <-%Val_inj ?. by right.
  - destruct (wop_apply o s) as [s1| |] eqn:E; [|done..]. cbn [mbind out_bind]. intros H Hd.
    destruct (IH _ _ _ H Hd) as [Hi|Hi]; [left; by right|]. destruct (wop_apply_deleted _ _ _ _ E Hi) as [->|?]; [left; by left|by right].
Qed.
Lemma aligned_covered s : PInv s -> aligned s -> covered (log_view s) s.
Proof.
  intros (os & b & HW) Ha id Hid Hv.
  destruct (pw_key _ _ _ _ HW _ Hv) as (id' & Ek & Hlt & Hb). destruct Hb as [Hb|(i & vec & Hi)]; [|done].
  assert (id' = id) as ->.
  { eapply id_key_inj; [|exact Hid|by symmetry]. pose proof (pw_cnt _ _ _ _ HW). cbn in *. lia. }
  destruct (pw_dom _ _ _ _ HW _ Hb) as [Hp|(i & vec & level & Hi)]; [|done].
  cbn in Hp. rewrite lookup_fmap in Hp. apply fmap_is_Some in Hp. destruct (decide (id ∈ deleted s)) as [Hd|Hd]; [right|left; by apply Ha].
  pose proof (pw_del _ _ _ _ HW) as Hdel. cbn in Hdel. rewrite <- Hdel in Hd.
  destruct (wops_apply_deleted _ _ _ _ (pw_app _ _ _ _ HW) Hd) as [Hi|Hi]; [|cbn in Hi; set_solver].
  destruct (enc_elem _ _ _ (pw_enc _ _ _ _ HW) Hi) as (r & He & Hr). exists r. split; [exact He|exact Hr].
Qed.

(** ** Whole batches *)
Section runs.
  Context (C : cparams) (n B : nat) (strict : bool).
  Notation P := (cp_h C).
  Context (HP : params_ok P) (Hk : dim_ok (hp_dist P) n) (HB : B <= cp_fuel C) (HB64 : (N.of_nat B < 2 ^ 64)%N).
  Context (Hm : hp_m P < mMax0 P).

  (** How a batch ends. *)
  Record batch_end (s s' : st) (rs : list (out (list object))) : Prop := MkEnd {
    be_np : Forall no_pan rs;
    be_val : strict = true -> forall r, r ∈ rs -> exists l, r = Val l;
    be_inv : Inv P true (okd n) (below B) s';
    be_un : unlocked s';
    be_id : forall id, is_Some (nodes s' !! id) -> (id < cnt s')%N;
    be_grow : forall id, is_Some (nodes s !! id) -> is_Some (nodes s' !! id);
    be_in : forall o, o ∈ mjoin (out_list <$> rs) -> is_Some (nodes s' !! o_id o)
  }.
  Definition can_finish (s : st) (ts : list (prog st (list object))) : Prop :=
    (exists rs, ts = Done <$> rs) \/ exists m, mstep (s, ts) m.

  Lemma workers_end (s s' : st) (mk : nat -> prog st (list object)) (bud : nat -> nat) (w c : nat) (ts : list (prog st (list object))) :
    Inv P true (okd n) (below B) s -> unlocked s -> (forall id, is_Some (nodes s !! id) -> (id < cnt s)%N) -> closed s = false ->
    Forall (fun ol => storable C n strict (fst ol)) (chan s) -> length (chan s) <= c ->
    (cnt s + N.of_nat (sum_list (bud <$> seq 0 w) + length (chan s)) <= N.of_nat B)%N ->
    (forall i own s1, bK C n B strict c (BL (S i) own (bud i)) s1 -> wp (bE C n B strict) (bGU C n B) bB (mk i)
       (fun x' r s' => bpost C n B strict c (fun os' s' => Forall (present_in s') os') x' r s' /\ b_t x' = S i) (BL (S i) own (bud i)) s1) ->
    rtc mstep (s, mk <$> seq 0 w) (s', ts) ->
    can_finish s' ts /\ forall rs, ts = Done <$> rs -> batch_end s s' rs.
  Proof using.
    clear HP Hk HB HB64 Hm. intros HI Hun Hid Hcl Hch Hc Hroom Hmk Hr.
    set (xs := (fun i => BL (S i) ∅ (bud i)) <$> seq 0 w).
    assert (Hxs : forall i x, xs !! i = Some x -> x = BL (S i) ∅ (bud i)).
    { intros i x Hi. unfold xs in Hi. rewrite list_lookup_fmap in Hi. destruct (seq 0 w !! i) as [j|] eqn:E; [|done].
      apply lookup_seq in E as [-> _]. by injection Hi as <-. }
    assert (Hbud : b_bud <$> xs = bud <$> seq 0 w) by (unfold xs; rewrite <- list_fmap_compose; done).
    assert (HJ : bJ C n B strict (sum_list (b_bud <$> xs)) s) by (rewrite Hbud; by split).
    set (Q := fun (i : nat) x' (r : out (list object)) s' => bpost C n B strict c (fun os' s' => Forall (present_in s') os') x' r s' /\ b_t x' = S i).
    assert (Ha : all_wp (bE C n B strict) (bGU C n B) bB (bW C n B strict 1 s) Q xs (mk <$> seq 0 w) s).
    { split; [unfold xs; by rewrite !fmap_length|]. split.
      - split; try done.
        + by intros i x ->%Hxs.
        + intros i j x y _ ->%Hxs ->%Hxs. set_solver.
        + intros i x id ->%Hxs H. cbn in H. set_solver.
        + intros m v t Hv Hl. by rewrite (Hun m v Hv) in Hl.
        + apply ext_refl.
      - intros i x p Hi Hp. pose proof (sum_bl_ge _ _ _ Hi) as Hge. pose proof (Hxs _ _ Hi) as ->. rewrite list_lookup_fmap in Hp.
        destruct (seq 0 w !! i) as [j|] eqn:E; [|done]. apply lookup_seq in E as [-> _]. injection Hp as <-. apply Hmk.
        split_and!; [done|by apply unlocked_free|]. split_and!; [|cbn; set_solver|done].
        destruct HJ as [J1 J2 J3 J4]. split; try done. cbn in *. lia. }
    destruct (batch_reach_wf C n B strict 1 s Q xs _ _ s s' Ha Hr) as (xs' & Ha' & Hprog).
    { intros i x r s1 ((( _ & Hf & _) & _) & _). exact Hf. }
    split; [exact Hprog|]. intros rs ->.
    destruct (all_wp_done _ _ _ (bE_refl C n B strict) _ _ _ _ _ Ha') as (Hl' & [WI Wt Wd Wo Wl WJ WX] & HQ).
    assert (Hq : forall i r, rs !! i = Some r -> exists x, xs' !! i = Some x /\ Q i x r s').
    { intros i r Hi. destruct (lookup_lt_is_Some_2 xs' i) as [x Hx]; [rewrite Hl'; by eapply lookup_lt_Some|]. exists x. split; [done|]. by eapply HQ. }
    split.
    - apply Forall_lookup. intros i r Hi. destruct (Hq _ _ Hi) as (x & _ & (_ & Hn & _) & _). done.
    - intros Hs r Hr'. apply elem_of_list_lookup in Hr' as [i Hi]. destruct (Hq _ _ Hi) as (x & _ & (_ & _ & Hv & _) & _). by apply Hv.
    - done.
    - intros m v Hv. destruct (v_lock v) as [t|] eqn:El; [|done]. exfalso. destruct (Wl m v t Hv El) as [Hlo Hhi].
      destruct (lookup_lt_is_Some_2 rs (t - 1)) as [r Hr']; [rewrite <- Hl'; lia|]. destruct (Hq _ _ Hr') as (x & Hx & ((_ & Hf & _) & _) & Ht).
      apply (Hf m v Hv). rewrite El, Ht. f_equal. lia.
    - apply (bj_ids _ _ _ _ _ _ WJ).
    - intros id [v Hv]. destruct (WX _ _ Hv) as (v1 & Hv1 & _). by eexists.
    - intros o Ho. apply elem_of_list_join in Ho as (l & Ho & Hl). apply elem_of_list_fmap in Hl as (r & -> & Hr').
      apply elem_of_list_lookup in Hr' as [i Hi]. destruct (Hq _ _ Hi) as (x & _ & (_ & _ & _ & Hv) & _).
      destruct r as [os'|e|z]; cbn in Ho; [|by apply elem_of_nil in Ho..]. specialize (Hv os' eq_refl). rewrite Forall_forall in Hv. by apply Hv.
  Qed.

  Definition fed1 (ol : object * nat) : Prop := storable C n strict (fst ol).
  Lemma batch_end_wf os s s' ts :
    Inv P true (okd n) (below B) s -> unlocked s -> (forall id, is_Some (nodes s !! id) -> (id < cnt s)%N) -> closed s = false -> chan s = [] ->
    Forall fed1 os -> (cnt s + N.of_nat (length os) <= N.of_nat B)%N ->
    rtc mstep (s, batch_threads C os) (s', ts) ->
    can_finish s' ts /\ forall rs, ts = Done <$> rs -> batch_end s s' rs.
  Proof using HP Hk HB HB64 Hm.
    intros HI Hun Hid Hcl Hch Hf Hroom Hr.
    apply (workers_end s s' (fun i => worker C (S i) (chunk (cp_workers C) i os)) (fun i => length (chunk (cp_workers C) i os) + 0) (cp_workers C) 0); try done.
    - by rewrite Hch.
    - by rewrite Hch.
    - rewrite Hch. cbn [length]. pose proof (chunk_length_sum (cp_workers C) os) as Hs. rewrite Nat.add_0_r.
      assert ((fun i => length (chunk (cp_workers C) i os) + 0) <$> seq 0 (cp_workers C) = (fun i => length (chunk (cp_workers C) i os)) <$> seq 0 (cp_workers C)) as ->; [|lia].
      apply list_fmap_ext. intros _ i _. lia.
    - intros i own s1 HK. eapply wp_mono; [|apply (bwp_worker C n B strict HP Hk HB HB64 Hm); [|exact HK]].
      + intros x' r s2 ((K1 & K2 & K3 & K4) & Ht). split; [|done]. split_and!; [done..|]. intros os' Ho. specialize (K4 os' Ho).
        unfold stored_all in K4. clear -K4. induction K4 as [|? ? ? ? [? _]]; by constructor.
      + unfold chunk. by apply Forall_take, Forall_drop.
  Qed.
  Lemma batch2_end_wf os s s' ts :
    Inv P true (okd n) (below B) s -> unlocked s -> (forall id, is_Some (nodes s !! id) -> (id < cnt s)%N) -> closed s = false ->
    Forall fed1 os -> (cnt s + N.of_nat (length os) <= N.of_nat B)%N ->
    rtc mstep (set_chan os s, batch2_threads C os) (s', ts) ->
    can_finish s' ts /\ forall rs, ts = Done <$> rs -> batch_end s s' rs.
  Proof using HP Hk HB HB64 Hm.
    intros HI Hun Hid Hcl Hf Hroom Hr.
    destruct (workers_end (set_chan os s) s' (fun i => worker2 C (length os) (S i)) (fun _ => 0) (cp_workers C) (length os) ts) as [H1 H2]; try done.
    - by eapply Inv_same; [..|exact HI].
    - cbn. assert (sum_list ((fun _ : nat => 0) <$> seq 0 (cp_workers C)) = 0) as ->; [|lia].
      generalize (seq 0 (cp_workers C)). intros l. induction l as [|y l IH]; [done|]. exact IH.
    - intros i own s1 HK. by apply (bwp_worker2 C n B strict HP Hk HB HB64 Hm).
    - split; [done|]. intros rs Hrs. destruct (H2 rs Hrs). by split.
  Qed.
End runs.

(** ** Histories with batches *)
Section calm.
  Context (C : cparams) (n B : nat).
  Notation P := (cp_h C).
  Context (HP : params_ok P) (Hk : dim_ok (hp_dist P) n) (HB : B <= cp_fuel C) (HB64 : (N.of_nat B < 2 ^ 64)%N).
  Context (Hm : hp_m P < mMax0 P).
  Context (Hmax : (cp_maxval C < 2 ^ 32)%N) (Hdeg : (N.of_nat (Nat.max (hp_m P) (2 * hp_mMax P)) < 2 ^ 32)%N) (HJ : json_total (cp_json C)).

  (** What a batch is given: the embedder answers, the vectors have dimension
      [n], floats and levels fit their fields. *)
  Definition batch_fed (ol : list (object * nat)) : Prop :=
    Forall level_ok (ol.*2) /\ no_pan (embed_objects C (ol.*1)) /\
    forall os, embed_objects C (ol.*1) = Val os -> Forall (fun o => floats_ok (vec_or_nil o) /\ length (vec_or_nil o) = n) os.
  (** One call; writes to the disk may fail. *)
  Definition calm (c : call) : Prop :=
    match c with CBatch _ ol | CBatch2 _ ol => batch_fed ol | _ => calm1 C n c end.
  Definition calm_ev (e : event) : Prop := match e with EvCall c _ => calm c | _ => False end.

  Lemma calm_fed c : calm c -> call_fed C c.
  Proof using.
    intros Ht.
    assert (H0 : forall os, embed_objects C [] = Val os -> Forall (fun o => floats_ok (vec_or_nil o)) os).
    { intros os He%embed_length. destruct os; [constructor|done]. }
    destruct c as [io level o|io ol|io ol|io id|ids|o k| |o| ]; try done; try (by split_and!; [constructor|apply H0|]).
    - destruct Ht as ((Hl & Hf) & _). split_and!; [by repeat constructor| |done]. intros os He. cbn in He. apply Forall_forall. intros o' Ho. by eapply Hf.
    - destruct Ht as (H1 & _ & H2). split_and!; [done| |done]. intros os He. eapply Forall_impl; [by apply H2|]. by intros o [? _].
    - destruct Ht as (H1 & _ & H2). split_and!; [done| |done]. intros os He. eapply Forall_impl; [by apply H2|]. by intros o [? _].
  Qed.

  Definition is_batch (c : call) (io : bool) (ol : list (object * nat)) : Prop := c = CBatch io ol \/ c = CBatch2 io ol.
  (** The start of the workers of a batch whose preparation gave [os]. *)
  Definition batch_start (c : call) (os : list object) (s : st) : machine st (list object) :=
    match c with
    | CBatch _ ol => (s, batch_threads C (zip os (ol.*2)))
    | CBatch2 _ ol => (set_chan (zip os (ol.*2)) s, batch2_threads C (zip os (ol.*2)))
    | _ => (s, [])
    end.

  Lemma fed_storable strict os (ls : list nat) : Forall (storable C n strict) os -> Forall (fed1 C n strict) (zip os ls).
  Proof using.
    clear HP Hk HB HB64 Hm. intros H. apply Forall_forall. intros [o l] Hin. apply elem_of_zip_l in Hin. rewrite Forall_forall in H. by apply H.
  Qed.
  Lemma batch_start_end strict c io ol os s s' ts :
    is_batch c io ol -> WfI C n B true s -> SInv s -> (cnt s + N.of_nat (length ol) <= N.of_nat B)%N ->
    batch_prepare C s (ol.*1) = Val os -> Forall (storable C n strict) os ->
    rtc mstep (batch_start c os s) (s', ts) ->
    can_finish s' ts /\ forall rs, ts = Done <$> rs -> batch_end C n B strict s s' rs.
  Proof using HP Hk HB HB64 Hm Hmax Hdeg HJ.
    intros Hc [W1 W2 W3 _] HI Hroom Hp Hst Hr. apply batch_prepare_val in Hp as (Hcl & _ & Hemb & Hlen).
    assert (Hzip : length (zip os ol.*2) = length ol) by (rewrite zip_with_length, fmap_length, Hlen, fmap_length; lia).
    assert (Hfed : Forall (fed1 C n strict) (zip os ol.*2)) by (by apply fed_storable).
    destruct Hc as [-> | ->]; cbn [batch_start] in Hr.
    - eapply (batch_end_wf C n B strict HP Hk HB HB64 Hm); [done..|apply (si_chan _ HI)|exact Hfed| |exact Hr]. rewrite Hzip. exact Hroom.
    - eapply (batch2_end_wf C n B strict HP Hk HB HB64 Hm); [done..|exact Hfed| |exact Hr]. rewrite Hzip. exact Hroom.
  Qed.

  (** Every run of the workers can be continued to its end. *)
  Lemma can_complete s ts : (forall s' ts', rtc mstep (s, ts) (s', ts') -> @can_finish s' ts') -> exists s' rs, rtc mstep (s, ts) (s', Done <$> rs).
  Proof using.
    clear HP Hk HB HB64 Hm. remember (s, ts) as m eqn:E. revert s ts E. induction (mstep_acc m) as [m _ IH]. intros s ts -> H.
    destruct (H s ts (rtc_refl _ _)) as [[rs ->]|[[s1 ts1] Hm1]].
    - by exists s, rs.
    - destruct (IH (s1, ts1) Hm1 s1 ts1 eq_refl) as (s' & rs & Hr).
      + intros s' ts' Hr. apply H. by eapply rtc_l.
      + exists s', rs. by eapply rtc_l.
  Qed.

  Lemma prepare_no_pan s ol : batch_fed ol -> no_pan (batch_prepare C s (ol.*1)).
  Proof using.
    intros (_ & H & _). unfold batch_prepare. destruct (closed s); [done|]. pose proof (validate_no_pan C 0 ol.*1) as Hv.
    destruct (validate_objects C 0 ol.*1) as [[]|e|z]; [exact H|done|by destruct (Hv z)].
  Qed.
  Lemma loose_storable ol os : batch_fed ol -> embed_objects C (ol.*1) = Val os -> Forall (storable C n false) os.
  Proof using. intros (_ & _ & H) He. eapply Forall_impl; [by apply H|]. intros o [_ ?]. by split. Qed.

  Lemma errs_dec (rs : list (out (list object))) : (exists e, Err e ∈ rs) \/ forall e, Err e ∉ rs.
  Proof using.
    induction rs as [|r rs IH]; [right; intros e He; by apply elem_of_nil in He|].
    destruct r as [l|e|z]; [|left; exists e; by left|].
    all: destruct IH as [[e He]|IH]; [left; exists e; by right|right]; intros e [?|?]%elem_of_cons; [done|by apply (IH e)].
  Qed.
  Lemma batch_runs c io ol s :
    is_batch c io ol -> WfI C n B true s -> SInv s -> (cnt s + N.of_nat (length ol) <= N.of_nat B)%N -> batch_fed ol ->
    exists s' r, call_run C s c s' r.
  Proof using HP Hk HB HB64 Hm Hmax Hdeg HJ.
    intros Hc HW HI Hroom Hf. destruct (batch_prepare C s ol.*1) as [os|e|z] eqn:Ep.
    - assert (Hst : Forall (storable C n false) os) by (apply batch_prepare_val in Ep as (_ & _ & He & _); by eapply loose_storable).
      destruct (batch_start c os s) as [sa ts] eqn:Eb.
      destruct (can_complete sa ts) as (s' & rs & Hr).
      { intros s' ts' Hr. eapply (batch_start_end false c io ol os s s' ts'); try done. by rewrite Eb. }
      assert (Hrun : exists s2 r, batch_run io ts sa s2 r rs).
      { destruct (errs_dec rs) as [[e He]|He]; [by eexists _, _; eapply BatchErr|]. destruct (wal_flush io s') as [s2 r] eqn:Ef. exists s2, r. by eapply BatchOk. }
      destruct Hrun as (s2 & r & Hrun). destruct Hc as [-> | ->]; cbn [batch_start] in Eb; apply pair_inj in Eb as [<- <-]; eexists _, _.
      + by eapply RunBatch.
      + by eapply RunBatch2.
    - destruct Hc as [-> | ->]; eexists _, _; [eapply RunBatchRefused|eapply RunBatch2Refused]; try done.
    - destruct Hc as [-> | ->]; eexists _, _; [eapply RunBatchRefused|eapply RunBatch2Refused]; try done.
  Qed.

  (** A complete batch call. *)
  Lemma wf_batch strict c io ol s s' r :
    is_batch c io ol -> WfI C n B true s -> SInv s -> (cnt s + N.of_nat (length ol) <= N.of_nat B)%N -> batch_fed ol ->
    (forall os, embed_objects C (ol.*1) = Val os -> Forall (storable C n strict) os) ->
    call_run C s c s' r ->
    reply_no_pan r /\ Inv P true (okd n) (below B) s' /\ unlocked s' /\ (forall id, is_Some (nodes s' !! id) -> (id < cnt s')%N) /\
    (forall id, is_Some (nodes s !! id) -> is_Some (nodes s' !! id)) /\ (forall o, o ∈ acked (EvCall c r) -> is_Some (nodes s' !! o_id o)) /\
    (strict = true -> forall r0 rs x, r = RBatch r0 rs -> x ∈ rs -> exists l, x = Val l).
  Proof using HP Hk HB HB64 Hm Hmax Hdeg HJ.
    intros Hc HW HI Hroom Hf Hst Hr.
    assert (Hrefused : forall r1, batch_prepare C s ol.*1 = r1 -> (forall os, r1 <> Val os) -> s' = s -> r = RBatch (_ ← r1; Val tt) [] ->
      reply_no_pan r /\ Inv P true (okd n) (below B) s' /\ unlocked s' /\ (forall id, is_Some (nodes s' !! id) -> (id < cnt s')%N) /\
      (forall id, is_Some (nodes s !! id) -> is_Some (nodes s' !! id)) /\ (forall o, o ∈ acked (EvCall c r) -> is_Some (nodes s' !! o_id o)) /\
      (strict = true -> forall r0 rs x, r = RBatch r0 rs -> x ∈ rs -> exists l, x = Val l)).
    { intros r1 Hp Hn -> ->. destruct HW as [W1 W2 W3 _]. pose proof (prepare_no_pan s ol Hf) as Hnp. rewrite Hp in Hnp.
      destruct r1 as [os|e|z]; [by destruct (Hn os)| |by destruct (Hnp z)]. split_and!; try done.
      - cbn. intros o Ho. by apply elem_of_nil in Ho.
      - intros _ r0 rs x [= <- <-] Hx. by apply elem_of_nil in Hx. }
    assert (Hmain : forall os ts sa s2 r1 rs, batch_prepare C s ol.*1 = Val os -> batch_start c os s = (sa, ts) -> batch_run io ts sa s2 r1 rs ->
      r = RBatch r1 rs -> nodes s' = nodes s2 -> ep s' = ep s2 -> maxl s' = maxl s2 -> once s' = once s2 -> cnt s' = cnt s2 ->
      reply_no_pan r /\ Inv P true (okd n) (below B) s' /\ unlocked s' /\ (forall id, is_Some (nodes s' !! id) -> (id < cnt s')%N) /\
      (forall id, is_Some (nodes s !! id) -> is_Some (nodes s' !! id)) /\ (forall o, o ∈ acked (EvCall c r) -> is_Some (nodes s' !! o_id o)) /\
      (strict = true -> forall r0 rs x, r = RBatch r0 rs -> x ∈ rs -> exists l, x = Val l)).
    { intros os ts sa s2 r1 rs Hp Hbs Hb -> E1 E2 E3 E4 E5.
      assert (Hend : forall s1, rtc mstep (sa, ts) (s1, Done <$> rs) -> batch_end C n B strict s s1 rs).
      { intros s1 H1. rewrite <- Hbs in H1. eapply batch_start_end in H1 as [_ H1]; [|done..|]; [by apply H1|]. apply batch_prepare_val in Hp as (_ & _ & He & _). by apply Hst. }
      inversion Hb as [s1 rs2 s3 r3 H2 Hg Hfl|s1 rs2 e H2 Hg]; subst.
      - destruct (Hend _ H2) as [B1 B2 B3 B4 B5 B6 B7]. destruct (flush_wf _ _ _ _ Hfl) as (F0 & F1 & F2 & F3 & F4 & F5 & _).
        split_and!.
        + by split.
        + eapply (Inv_same P true (okd n) (below B) s1); [congruence..| |exact B3]. intros Ho. congruence.
        + unfold unlocked. rewrite E1, F1. exact B4.
        + rewrite E1, F1, E5, F5. exact B5.
        + rewrite E1, F1. exact B6.
        + rewrite E1, F1. cbn. destruct r1 as [[]|e|z]; [exact B7|..]; intros o Ho; by apply elem_of_nil in Ho.
        + intros Hs r0 rs' x [= <- <-]. apply B2, Hs.
      - destruct (Hend _ H2) as [B1 B2 B3 B4 B5 B6 B7]. split_and!.
        + by split.
        + eapply (Inv_same P true (okd n) (below B) s2); [congruence..| |exact B3]. intros Ho. congruence.
        + unfold unlocked. rewrite E1. exact B4.
        + rewrite E1, E5. exact B5.
        + rewrite E1. exact B6.
        + cbn. intros o Ho. by apply elem_of_nil in Ho.
        + intros Hs r0 rs' x [= <- <-]. apply B2, Hs. }
    destruct Hc as [-> | ->].
    - inversion Hr as [|io' ol' r1 Hp Hn|io' ol' os s1 r1 rs Hp Hb| | | | | | | |]; subst.
      + by eapply Hrefused.
      + by eapply (Hmain os _ _ s' r1 rs).
    - inversion Hr as [| | |io' ol' r1 Hp Hn|io' ol' os s1 r1 rs Hp Hb| | | | | |]; subst.
      + by eapply Hrefused.
      + by eapply (Hmain os _ _ s1 r1 rs).
  Qed.

  Lemma calm_cases c : calm c -> (calm1 C n c /\ (forall io ol, ~ is_batch c io ol)) \/ exists io ol, is_batch c io ol /\ batch_fed ol /\ submitted c = ol.*1.
  Proof using.
    destruct c as [io level o|io ol|io ol|io id|ids|o k| |o| ]; intros H; try (left; split; [exact H|]; by intros ? ? [?|?]).
    - right. exists io, ol. by split_and!; [left|..].
    - right. exists io, ol. by split_and!; [right|..].
  Qed.
  Lemma conc_deg : hp_m P + slack true <= mMax0 P.
  Proof using Hm. clear HP Hk HB HB64 Hmax Hdeg. unfold slack. lia. Qed.

  Lemma calm_run c s s' r :
    WfI C n B true s -> SInv s -> PInv s -> enc_ok C s -> (cnt s + N.of_nat (length (submitted c)) <= N.of_nat B)%N -> calm c -> (is_search c = true -> nodes s <> ∅) ->
    call_run C s c s' r ->
    reply_no_pan r /\ WfI C n B true s' /\ SInv s' /\ PInv s' /\ enc_ok C s' /\ (cnt s' <= cnt s + N.of_nat (length (submitted c)))%N /\
    (forall id, is_Some (nodes s !! id) -> is_Some (nodes s' !! id)) /\
    (forall o', o' ∈ acked (EvCall c r) -> is_Some (nodes s' !! o_id o')).
  Proof using HP Hk HB HB64 Hm Hmax Hdeg HJ.
    intros HW HI HPI He Hroom Hc Hse Hr.
    assert (Hstep : ev_step C s (EvCall c r) s') by (by constructor).
    assert (H64 : (cnt s + N.of_nat (ev_inserts (EvCall c r)) < 2 ^ 64)%N) by (cbn; lia).
    destruct (ev_step_store C s (EvCall c r) s' HI H64 Hstep) as (HI2 & ids & Hw). pose proof (ew_cnt _ _ _ _ _ Hw) as [_ Hcnt]. cbn [ev_inserts] in Hcnt.
    assert (HPI2 : PInv s') by (eapply (run_par C Hmax Hdeg s c); try done; by apply calm_fed).
    assert (He2 : enc_ok C s') by (by apply (enc_run C s c s' r Hr)).
    destruct (calm_cases c Hc) as [[Hc1 Hnb]|(io & ol & Hb & Hf & Es)].
    - destruct (wf_run C n B true HP conc_deg Hk HB HB64 Hmax Hdeg HJ c s s' r HW He Hroom Hc1 Hse Hr) as (H1 & H2 & _ & H4 & H5).
      by split_and!.
    - rewrite Es, fmap_length in Hroom.
      destruct (wf_batch false c io ol s s' r Hb HW HI Hroom Hf ltac:(intros os; by apply loose_storable) Hr) as (H1 & H2 & H3 & H4 & H5 & H6 & _).
      split_and!; try done. split; [done..|]. apply covered_aligned; [done|]. eapply run_covered; [exact Hr|]. apply aligned_covered; [done|]. apply HW.
  Qed.

  Lemma hist_calm h1 s1 h2 s :
    hist C empty_st h1 s1 -> Forall (tidy_ev C n) h1 -> log_small C h1 s1 -> hist C s1 h2 s -> Forall calm_ev h2 ->
    fed_first (h1 ++ h2) -> hist_inserts (h1 ++ h2) <= B ->
    WfI C n B true s /\ SInv s /\ PInv s /\ enc_ok C s /\ Forall ev_no_pan (h1 ++ h2) /\ (cnt s <= N.of_nat (hist_inserts (h1 ++ h2)))%N /\
    (forall id, id ∈ acked_ids (h1 ++ h2) -> is_Some (nodes s !! id)).
  Proof using HP Hk HB HB64 Hm Hmax Hdeg HJ.
    intros Hh1 Ht Hl Hh2. induction Hh2 as [|h e s2 s3 Hh2 IH Hs]; intros Hc Hf Hn.
    { rewrite app_nil_r in *. 
      destruct (hist_tidy C n B false HP (seq_slack P HP) Hk HB HB64 Hmax Hdeg HJ h1 s1 Hh1 Ht Hf Hn Hl) as ([W1 W2 W3 W4] & _ & Hp & Hcnt & Ha).
      destruct (hist_par C Hmax Hdeg h1 s1 Hh1 (tidy_ev_fed C n h1 Ht) ltac:(lia)) as (HI & HPI & _).
      split_and!; try done. { split; [by apply Inv_conc|done..]. } eapply hist_enc; [exact Hh1|apply enc_empty]. }
    rewrite app_assoc in Hf, Hn. apply Forall_app in Hc as [Hc He]. apply Forall_cons in He as [He _]. rewrite app_assoc, hist_inserts_snoc in *.
    destruct IH as (HW & HI & HPI & Hen & Hp & Hcnt & Ha); [done|by eapply fed_first_snoc|lia|].
    destruct e as [c r| |]; [|done..]. inversion Hs as [c' s' r' Hr| |]; subst. cbn [ev_inserts calm_ev] in *.
    assert (Hse : is_search c = true -> nodes s2 <> ∅).
    { intros E. specialize (Hf (h1 ++ h) c r [] eq_refl E). intros E2. destruct (acked_ids (h1 ++ h)) as [|i l]; [done|].
      destruct (Ha i ltac:(by left)) as [v Hv]. by rewrite E2 in Hv. }
    destruct (calm_run c s2 s3 r HW HI HPI Hen ltac:(lia) He Hse Hr) as (H1 & H2 & H3 & H4 & H5 & H6 & H7 & H8).
    split_and!; try done.
    - apply Forall_app; split; [done|]. by constructor.
    - lia.
    - intros id. rewrite acked_ids_snoc, elem_of_app, elem_of_list_fmap. intros [Hid|(o' & -> & Ho)]; [by apply H7, Ha|by apply H8].
  Qed.
End calm.
