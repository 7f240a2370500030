(** C112: the id counter when a write of it is cut short. *)
From stdpp Require Import relations sorting.
From Verif Require Import GoBase FloatModel HeapModel ProgModel StateModel WalModel HnswModel StoreModel CollModel CallModel CounterModel
  ProofBase CodecProofs WpProofs CallProofs HistProofs HistRun PropStore.
Open Scope nat_scope.

(** ** Bytes of numbers *)
Lemma le_put_app k m x : le_put (k + m) x = le_put k x ++ le_put m (x / 256 ^ N.of_nat k)%N.
Proof.
  revert x. induction k as [|k IH]; intros x; [by rewrite N.div_1_r|]. cbn [Nat.add le_put app]. rewrite IH. f_equal. f_equal. f_equal.
  rewrite Nat2N.inj_succ, N.pow_succ_r', N.div_div; [done|lia|apply N.pow_nonzero; lia].
Qed.
(** The first [k] bytes of one number and the others of another. *)
Lemma le_put_mixed k n x y : k <= n ->
  take k (le_put n y) ++ drop k (le_put n x) = le_put n (y mod 256 ^ N.of_nat k + 256 ^ N.of_nat k * (x / 256 ^ N.of_nat k))%N.
Proof.
  intros Hk. destruct (Nat.le_exists_sub k n Hk) as (m & -> & _). rewrite (Nat.add_comm m k), !le_put_app.
  assert (Hz : (256 ^ N.of_nat k <> 0)%N) by (apply N.pow_nonzero; lia).
  rewrite take_app_alt by (by rewrite le_put_length). rewrite drop_app_alt by (by rewrite le_put_length).
  rewrite (N.mul_comm (256 ^ _)), N.div_add, (N.div_small (y mod _)), N.add_0_l by (done || by apply N.mod_lt). f_equal.
  rewrite <- (le_put_mod k y), <- (le_put_mod k (_ + _)). f_equal. rewrite N.mod_add, N.mod_mod by done. done.
Qed.

(** The file holds the number, or an earlier one, or nothing yet. *)
Record ctr_ok (s : ctr) : Prop := MkCtrOk {
  co_small : (ct_count s < 2 ^ 64)%N;
  co_file : (exists f, ct_file s = le_put 8 f /\ (f <= ct_count s)%N) \/ ct_file s = []
}.
(** The number in the file. *)
Definition on_file (s : ctr) : N := default 0%N (le_get 8 (ct_file s)).
Lemma on_file_put c f : (f < 2 ^ 64)%N -> on_file (Ctr c (le_put 8 f)) = f.
Proof. intros Hf. unfold on_file. cbn [ct_file]. by rewrite (le_get_put 8 f Hf). Qed.

Lemma ctr_open_put c : (c < 2 ^ 64)%N -> ctr_open (le_put 8 c) = Val (Ctr c (le_put 8 c)).
Proof.
  intros Hc. unfold ctr_open, open_counter. pose proof (le_put_length 8 c) as Hl. pose proof (le_get_put 8 c Hc) as Hg.
  destruct (le_put 8 c) as [|b l]; [done|]. by rewrite Hg.
Qed.
Lemma ctr_full s : ctr_ok s -> (ct_count s + 1 < 2 ^ 64)%N -> ctr_written 8 s = le_put 8 (ct_count s + 1).
Proof.
  intros [_ Hf] Hc. unfold ctr_written, ctr_bytes. rewrite u64_small by done. rewrite take_ge by (by rewrite le_put_length).
  rewrite (drop_ge (ct_file s)); [by rewrite app_nil_r|]. destruct Hf as [(f & -> & _)| ->]; [by rewrite le_put_length|cbn; lia].
Qed.

(** ** C112 Ids stay unique when a write of the counter is cut short *)
(** The number found after a cut write is the old one if nothing arrived, the
    new one unless the bytes that arrived all carried over, and then a smaller one. *)
Theorem C112_torn_value : forall s k, ct_file s = le_put 8 (ct_count s) -> (ct_count s + 1 < 2 ^ 64)%N -> k <= 8 ->
  exists c, ctr_open (ctr_written k s) = Val (Ctr c (le_put 8 c)) /\ ctr_written k s = le_put 8 c /\
    (k = 0 /\ c = ct_count s \/
     0 < k /\ ((ct_count s + 1) mod 256 ^ N.of_nat k <> 0)%N /\ c = (ct_count s + 1)%N \/
     0 < k /\ ((ct_count s + 1) mod 256 ^ N.of_nat k = 0)%N /\ (c + 256 ^ N.of_nat k)%N = (ct_count s + 1)%N).
Proof.
  intros [c f] k Hf Hc Hk. cbn [ct_count ct_file] in *.
  set (P := (256 ^ N.of_nat k)%N). assert (HP : (P <> 0)%N) by (apply N.pow_nonzero; lia).
  set (z := ((c + 1) mod P + P * (c / P))%N).
  assert (Hz : k = 0 /\ z = c \/ 0 < k /\ ((c + 1) mod P <> 0)%N /\ z = (c + 1)%N \/ 0 < k /\ ((c + 1) mod P = 0)%N /\ (z + P)%N = (c + 1)%N).
  { pose proof (N.div_mod c P HP) as E. pose proof (N.mod_lt c P HP) as Hr. subst z. set (q := (c / P)%N) in *. set (r := (c mod P)%N) in *. clearbody q r.
    destruct (decide (k = 0)) as [-> |Hk0].
    { left. split; [done|]. assert (P = 1%N) as EP by done. rewrite EP in *. rewrite N.mod_1_r. lia. }
    right. destruct (decide (r + 1 = P)%N) as [Er|Er].
    - right. assert (c + 1 = 0 + (q + 1) * P)%N as -> by lia. rewrite N.mod_add, N.mod_0_l by done. split; [lia|]. split; [done|]. lia.
    - left. assert (c + 1 = (r + 1) + q * P)%N as E1 by lia. rewrite E1, N.mod_add, N.mod_small by (done || lia). split; [lia|]. split; [lia|]. lia. }
  assert (Ew : ctr_written k (Ctr c f) = le_put 8 z).
  { unfold ctr_written, ctr_bytes. cbn [ct_count ct_file]. rewrite u64_small, Hf by done. by apply le_put_mixed. }
  exists z. rewrite Ew. split; [apply ctr_open_put|split; [done|exact Hz]]. clearbody z P. clear Ew. destruct Hz as [[_ ->]|[(_ & _ & ->)|(_ & _ & E)]]; lia.
Qed.
Print Assumptions C112_torn_value.

(** The full statement fails twice.  The first write of all is cut short, and
    the counter can never be opened again. *)
Theorem C112_reopen_refuted : ctr_run ctr_new [CTorn 3] = Err EUnexpectedEOF.
Proof. vm_compute. reflexivity. Qed.
Print Assumptions C112_reopen_refuted.
(** One byte of the write of 256 over 255 arrives, and id 0 is handed out again. *)
Definition carry : list cev := replicate 255 CFetch ++ [CTorn 1; CFetch].
Theorem C112_ids_unique_refuted : exists s ids, ctr_run ctr_new carry = Val (s, ids) /\ ids !! 0 = Some 0%N /\ ids !! 255 = Some 0%N /\ ~ NoDup ids.
Proof.
  assert (H : match ctr_run ctr_new carry with Val (_, ids) => bool_decide (ids !! 0 = Some 0%N) && bool_decide (ids !! 255 = Some 0%N) | _ => false end = true) by (vm_compute; reflexivity).
  destruct (ctr_run ctr_new carry) as [[s ids]|e|z]; [|done..]. apply andb_true_iff in H as [H1 H2]. apply bool_decide_eq_true_1 in H1, H2.
  exists s, ids. split_and!; try done. intros Hnd. pose proof (NoDup_lookup _ _ _ _ Hnd H1 H2). done.
Qed.
Print Assumptions C112_ids_unique_refuted.

(** Missing: writes cut short that make the number in the file smaller, because
    the bytes that arrived all carried over, and a first write cut short. *)
Definition tear_ok (s : ctr) (e : cev) : Prop :=
  match e with
  | CTorn k | CFail k => k <= 8 /\ (k = 0 \/ k = 8 \/ ct_file s <> [] /\ (on_file s mod 256 ^ N.of_nat k <= (ct_count s + 1) mod 256 ^ N.of_nat k)%N)
  | _ => True
  end.
Fixpoint spared (s : ctr) (evs : list cev) : Prop :=
  match evs with
  | [] => True
  | e :: evs' => tear_ok s e /\ forall s1 l, ctr_step s e = Val (s1, l) -> spared s1 evs'
  end.

(** The file after a write that spared it: empty still, or not smaller. *)
Lemma written_ok s k : ctr_ok s -> (ct_count s + 1 < 2 ^ 64)%N -> tear_ok s (CFail k) ->
  k = 0 /\ ct_file s = [] /\ ctr_written k s = [] \/
  exists z, ctr_written k s = le_put 8 z /\ (on_file s <= z <= ct_count s + 1)%N.
Proof.
  intros Hok Hc [Hk Ht]. pose proof (ctr_full s Hok Hc) as Hfull. destruct Hok as [Hs Hf]. destruct s as [c fb]. cbn [ct_count ct_file] in *. destruct Hf as [(f & -> & Hfc)| ->].
  - right. assert (Hf64 : (f < 2 ^ 64)%N) by lia. rewrite on_file_put in * by done.
    set (P := (256 ^ N.of_nat k)%N) in *. assert (HP : (P <> 0)%N) by (apply N.pow_nonzero; lia).
    exists ((c + 1) mod P + P * (f / P))%N. split.
    { unfold ctr_written, ctr_bytes. cbn [ct_count ct_file]. rewrite u64_small by done. by apply le_put_mixed. }
    pose proof (N.div_mod f P HP) as Ef. pose proof (N.div_mod (c + 1) P HP) as Ec. pose proof (N.mod_lt f P HP) as Hm. pose proof (N.div_le_mono f (c + 1) P HP ltac:(lia)) as Hd.
    assert (Hle : (f mod P <= (c + 1) mod P)%N \/ ((c + 1) / P = 0)%N /\ k = 8).
    { destruct Ht as [-> |[-> |[_ Ht]]]; [left|right|by left].
      - change P with 1%N. by rewrite !N.mod_1_r.
      - split; [|done]. apply N.div_small. exact Hc. }
    pose proof (N.mul_le_mono_l _ _ P Hd) as Hd'. destruct Hle as [Hle|[H0 ->]]; [lia|]. rewrite H0 in *. assert (f / P = 0)%N as E0 by lia. rewrite E0 in *. lia.
  - destruct Ht as [-> |[-> |[Ht _]]]; [left; done| |done]. right. exists (c + 1)%N. split; [done|]. unfold on_file. cbn. lia.
Qed.
Lemma ctr_open_file s fb : (fb = [] \/ exists f, fb = le_put 8 f /\ (f < 2 ^ 64)%N) -> ctr_open fb = Val (Ctr (on_file (Ctr s fb)) fb).
Proof. intros [-> |(f & -> & Hf)]; [done|]. by rewrite ctr_open_put, on_file_put. Qed.
(** Ids so far are below the number in the file. *)
Lemma ctr_step_ok s e : ctr_ok s -> (ct_count s + 1 < 2 ^ 64)%N -> tear_ok s e ->
  exists s1 l, ctr_step s e = Val (s1, l) /\ ctr_ok s1 /\ (ct_count s1 <= ct_count s + 1)%N /\ (on_file s <= on_file s1)%N /\
    (l = [] \/ exists i, l = [i] /\ (on_file s <= i)%N /\ (i + 1)%N = on_file s1).
Proof.
  intros Hok Hc Ht. pose proof (ctr_full s Hok Hc) as Hfull. pose proof Hok as [Hs Hf].
  assert (Hon : (on_file s <= ct_count s)%N /\ (ct_file s = [] \/ exists f, ct_file s = le_put 8 f /\ (f < 2 ^ 64)%N)).
  { destruct s as [c fb]. cbn [ct_count ct_file] in *. destruct Hf as [(f & -> & Hfc)| ->]; [rewrite on_file_put by lia; split; [done|right; exists f; split; [done|lia]]|split; [unfold on_file; cbn; lia|by left]]. }
  destruct Hon as [Hon Hfile]. assert (Hself : on_file (Ctr (ct_count s) (ct_file s)) = on_file s) by (by destruct s).
  destruct e as [| |k|k]; cbn [ctr_step ctr_fetch fst snd].
  - eexists _, _. split; [reflexivity|]. rewrite u64_small, Hfull by done. split; [split; cbn [ct_count ct_file]; [done|left; exists (ct_count s + 1)%N; split; [done|lia]]|].
    cbn [ct_count]. rewrite on_file_put by done. split; [lia|]. split; [lia|]. right. exists (ct_count s). split_and!; [done|lia|done].
  - rewrite (ctr_open_file (ct_count s)) by done. rewrite Hself. eexists _, _. split; [reflexivity|]. cbn [ct_count]. assert (on_file (Ctr (on_file s) (ct_file s)) = on_file s) as E by (by destruct s). rewrite E.
    split; [split; cbn [ct_count ct_file]; [lia|]|split_and!; [lia|lia|by left]].
    destruct Hfile as [-> |(f & Ef & Hf64)]; [by right|left]. exists f. split; [done|]. unfold on_file. rewrite Ef, (le_get_put 8 f Hf64). cbn. lia.
  - destruct (written_ok s k Hok Hc Ht) as [(-> & E0 & E)|(z & E & Hz)]; rewrite E.
    + eexists _, _. split; [reflexivity|]. split; [split; cbn; [lia|by right]|]. unfold on_file. rewrite E0. cbn. split_and!; [lia|lia|by left].
    + assert (Hz64 : (z < 2 ^ 64)%N) by lia. rewrite ctr_open_put by done. eexists _, _. split; [reflexivity|]. cbn [ct_count]. rewrite on_file_put by done. split; [split; cbn [ct_count ct_file]; [done|left; by exists z]|]. split_and!; [lia|lia|by left].
  - eexists _, _. split; [reflexivity|]. rewrite u64_small by done. cbn [ct_count]. destruct (written_ok s k Hok Hc Ht) as [(-> & E0 & E)|(z & E & Hz)]; rewrite E.
    + split; [split; cbn [ct_count ct_file]; [lia|by right]|]. unfold on_file. rewrite E0. cbn. split_and!; [lia|lia|by left].
    + assert (Hz64 : (z < 2 ^ 64)%N) by lia. rewrite on_file_put by done. split; [split; cbn [ct_count ct_file]; [lia|left; exists z; split; [done|lia]]|]. split_and!; [lia|lia|by left].
Qed.
Theorem C112_ids_unique_partial : forall evs, (N.of_nat (length evs) < 2 ^ 64)%N -> spared ctr_new evs ->
  exists s ids, ctr_run ctr_new evs = Val (s, ids) /\ StronglySorted N.lt ids.
Proof.
  assert (H : forall evs s, ctr_ok s -> (ct_count s + N.of_nat (length evs) < 2 ^ 64)%N -> spared s evs ->
    exists s' ids, ctr_run s evs = Val (s', ids) /\ StronglySorted N.lt ids /\ Forall (fun i => (on_file s <= i)%N) ids).
  { induction evs as [|e evs IH]; intros s Hok Hc Hsp; [eexists _, _; split; [reflexivity|split; constructor]|].
    destruct Hsp as [Ht Hsp]. cbn [length] in Hc. destruct (ctr_step_ok s e Hok) as (s1 & l & Hst & Hok1 & Hc1 & Hon & Hl); [lia|done|].
    specialize (Hsp _ _ Hst). destruct (IH s1 Hok1) as (s' & ids & Hr & Hs & Hf); [lia|done|]. cbn [ctr_run]. rewrite Hst. cbn [mbind out_bind]. rewrite Hr. cbn [mbind out_bind].
    eexists _, _. split; [reflexivity|]. destruct Hl as [-> |(i & -> & Hi & E)]; cbn [app].
    - split; [done|]. eapply Forall_impl; [exact Hf|]. cbn beta. intros; lia.
    - split; constructor; try done; try lia; (eapply Forall_impl; [exact Hf|]; cbn beta; intros; lia). }
  intros evs Hl Hs. destruct (H evs ctr_new) as (s & ids & Hr & Hss & _); [split; [done|by right]|done|done|]. by exists s, ids.
Qed.
Print Assumptions C112_ids_unique_partial.
(** Cut and refused writes that are harmless, with fetches around them. *)
Definition calm_cuts : list cev := [CTorn 0; CFetch; CTorn 1; CFetch; CReopen; CTorn 8; CFetch; CFail 0; CFetch; CFail 2; CReopen; CFetch].
Example C112_case : spared ctr_new calm_cuts /\ match ctr_run ctr_new calm_cuts with Val (_, ids) => ids = [0; 2; 4; 6; 8]%N | _ => False end.
Proof.
  split; [|vm_compute; reflexivity]. unfold calm_cuts.
  repeat match goal with |- spared _ (_ :: _) => split; [|let H := fresh in intros ? ? H; vm_compute in H; injection H as <- <-] | |- spared _ [] => exact I end.
  all: cbn [tear_ok]; try exact I; try (split; [lia|]; first [by left|by right; left|right; right; split; [discriminate|vm_compute; discriminate]]).
Qed.

(** Nothing less will do: after a fetch, every write cut short that [tear_ok] rules
    out makes the next id handed out no larger than the last. *)
Theorem C112_spared_needed : forall c f k, length f <= 8 -> (c + 2 < 2 ^ 64)%N -> k <= 8 -> ~ tear_ok (ctr_fetch (Ctr c f)).2 (CTorn k) ->
  exists s j, ctr_run (Ctr c f) [CFetch; CTorn k; CFetch] = Val (s, [c; j]) /\ (j <= c)%N.
Proof.
  intros c f k Hf Hc Hk Ht.
  assert (E1 : (ctr_fetch (Ctr c f)).2 = Ctr (c + 1) (le_put 8 (c + 1))).
  { unfold ctr_fetch, ctr_written, ctr_bytes. cbn [ct_count ct_file snd]. rewrite u64_small by lia. f_equal.
    rewrite (drop_ge f) by lia. rewrite app_nil_r. apply take_ge. by rewrite le_put_length. }
  assert (Hst : ctr_step (Ctr c f) CFetch = Val (Ctr (c + 1) (le_put 8 (c + 1)), [c])) by (cbn [ctr_step]; by rewrite E1).
  rewrite E1 in Ht. clear E1. cbn [tear_ok ct_count ct_file] in Ht. rewrite on_file_put in Ht by lia.
  set (P := (256 ^ N.of_nat k)%N) in *. assert (HP : (P <> 0)%N) by (apply N.pow_nonzero; lia).
  assert (Hlt : ((c + 1 + 1) mod P < (c + 1) mod P)%N).
  { apply N.nle_gt. intros Hn. apply Ht. split; [done|]. right. right. split; [discriminate|done]. }
  set (z := ((c + 1 + 1) mod P + P * ((c + 1) / P))%N).
  assert (Hz : (z <= c)%N) by (pose proof (N.div_mod (c + 1) P HP); lia).
  assert (Hw : ctr_written k (Ctr (c + 1) (le_put 8 (c + 1))) = le_put 8 z).
  { unfold ctr_written, ctr_bytes. cbn [ct_count ct_file]. rewrite u64_small by lia. by apply le_put_mixed. }
  clearbody z. exists (ctr_fetch (Ctr z (le_put 8 z))).2, z. split; [|done].
  cbn [ctr_run]. rewrite Hst. cbn [mbind out_bind]. cbn [ctr_step]. rewrite Hw, ctr_open_put by lia. reflexivity.
Qed.
Print Assumptions C112_spared_needed.
(** One byte of the write of 256. *)
Example C112_spared_needed_case : ~ tear_ok (ctr_fetch (Ctr 254 (le_put 8 254))).2 (CTorn 1).
Proof. intros [_ [H|[H|[_ H]]]]; [discriminate H|discriminate H|]. vm_compute in H. by apply H. Qed.

(** The counter of the collections is this counter. *)
Theorem C112_same_counter : forall s s' r, closed s = false -> exec fetch_and_inc s = Some (s', r) ->
  r = Val (ctr_fetch (Ctr (cnt s) (cfile s))).1 /\ Ctr (cnt s') (cfile s') = (ctr_fetch (Ctr (cnt s) (cfile s))).2.
Proof.
  intros s s' r Hcl. unfold fetch_and_inc. rewrite exec_act, Hcl. intros [= <- <-]. split; [done|]. unfold ctr_fetch, ctr_written, ctr_bytes. cbn.
  done.
Qed.
Print Assumptions C112_same_counter.

(** In a collection: object 0 is acknowledged, 254 objects have properties JSON
    does not know, and the machine fails during the next Insert when one byte of
    the counter has been written.  The Insert after the restart is given id 0 again
    and replaces the object. *)
Definition bad_ob : object := Object 0 {["a"%string := JNull]} (Some [7]%N).
Definition C112_script : list sev := SCall (CInsert true 0 (ob_a 1 [7]%N)) :: replicate 254 (SCall (CInsert true 0 bad_ob)).
Definition torn_disk (s : st) : disk := Disk (wlog s) (ctr_written 1 (Ctr (cnt s) (cfile s))) (objs s) (vecs s).
Definition C112_hs : list event * st := Eval vm_compute in default ([], empty_st) (script_exec ex_C_a C112_script empty_st).
Definition C112_s1 : st := Eval vm_compute in match reopen (torn_disk C112_hs.2) with Val s => s | _ => empty_st end.
Definition C112_s2 : st := Eval vm_compute in match exec (CollModel.insert ex_C_a 0 true 0 (ob_a 2 [9]%N)) C112_s1 with Some (s, _) => s | None => empty_st end.
Theorem C112_object_replaced_refuted : exists C h s s1 s2 o o', hist C empty_st h s /\ o ∈ mjoin (acked <$> h) /\
  exec (CollModel.get C [o_id o]) s = Some (s, Val [o]) /\ reopen (torn_disk s) = Val s1 /\
  exec (CollModel.insert C 0 true 0 (ob_a 2 [9]%N)) s1 = Some (s2, Val o') /\
  o_id o' = o_id o /\ o_vec o' <> o_vec o /\ exec (CollModel.get C [o_id o]) s2 = Some (s2, Val [o']).
Proof.
  exists ex_C_a, C112_hs.1, C112_hs.2, C112_s1, C112_s2, (Object 0 (o_props (ob_a 1 [7]%N)) (Some [7]%N)), (Object 0 (o_props (ob_a 2 [9]%N)) (Some [9]%N)).
  split; [apply (script_hist ex_C_a C112_script); vm_compute; reflexivity|].
  split; [assert (E : mjoin (acked <$> C112_hs.1) = [Object 0 (o_props (ob_a 1 [7]%N)) (Some [7]%N)]) by (vm_compute; reflexivity); rewrite E; by left|].
  split; [vm_compute; reflexivity|]. split; [vm_compute; reflexivity|]. split; [vm_compute; reflexivity|]. split; [reflexivity|]. split; [discriminate|].
  vm_compute. reflexivity.
Qed.
Print Assumptions C112_object_replaced_refuted.
