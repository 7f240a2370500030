(** C115: the file of the index log when a write of it is cut short. *)
From Verif Require Import GoBase FloatModel HeapModel ProgModel StateModel WalModel HnswModel StoreModel CollModel CallModel LogModel
  ProofBase CodecProofs WpProofs CallProofs HistProofs HistRun PropStore.
Open Scope nat_scope.

Lemma uv_put_nonempty f x : 0 < f -> uv_put f x <> [].
Proof. destruct f; [lia|]. intros _. cbn. by case_match. Qed.
Lemma uv_get_put f x r : 0 < f -> (x < 2 * 128 ^ (N.of_nat f - 1))%N -> uv_get f (uv_put f x ++ r) = Some (x, r).
Proof.
  revert x. induction f as [|f IH]; intros x Hf Hx; [lia|]. cbn [uv_put]. destruct (N.ltb_spec x 128) as [Hs|Hs]; cbn [app uv_get].
  - rewrite (proj2 (N.ltb_lt _ _) Hs). destruct (Nat.eqb_spec f 0) as [-> |]; [|done]. cbn [andb]. rewrite (proj2 (N.ltb_ge 1 x)); [done|].
    change (2 * 128 ^ (N.of_nat 1 - 1))%N with 2%N in Hx. lia.
  - pose proof (N.mod_lt x 128 ltac:(lia)) as Hm. rewrite (proj2 (N.ltb_ge (x mod 128 + 128) 128)) by lia.
    assert (0 < f) as Hf'. { destruct f; [|lia]. change (2 * 128 ^ (N.of_nat 1 - 1))%N with 2%N in Hx. lia. }
    rewrite IH; [| |].
    + cbn. f_equal. f_equal. pose proof (N.div_mod x 128 ltac:(lia)). lia.
    + done.
    + apply N.div_lt_upper_bound; [lia|]. assert (N.of_nat (S f) - 1 = N.succ (N.of_nat f - 1))%N as E by lia. rewrite E, N.pow_succ_r' in Hx. lia.
Qed.
Lemma uv_get_cut f x k : k < length (uv_put f x) -> uv_get f (take k (uv_put f x)) = None.
Proof.
  revert x k. induction f as [|f IH]; intros x k; cbn [uv_put]; [cbn; lia|]. destruct (N.ltb_spec x 128) as [Hs|Hs]; cbn [length].
  - intros Hk. replace k with 0 by lia. done.
  - intros Hk. destruct k as [|k]; [done|]. cbn [take uv_get]. rewrite (proj2 (N.ltb_ge _ 128)) by lia. rewrite IH by lia. done.
Qed.

(** Records no longer than a 64-bit number says. *)
Definition rec_ok (r : bytes) : Prop := (N.of_nat (length r) < 2 ^ 64)%N.
Lemma uv_rec r tl : rec_ok r -> uv_get 10 (rec_bytes r ++ tl) = Some (N.of_nat (length r), r ++ tl).
Proof. intros Hr. unfold rec_bytes. rewrite <- app_assoc. apply uv_get_put; [lia|]. exact Hr. Qed.
Lemma rec_bytes_cons r : exists x b, rec_bytes r = x :: b.
Proof. unfold rec_bytes. pose proof (uv_put_nonempty 10 (N.of_nat (length r)) ltac:(lia)). destruct (uv_put 10 _) as [|x b]; [done|]. by exists x, (b ++ r). Qed.
Lemma parse_rec n r tl : rec_ok r -> log_parse (S n) (rec_bytes r ++ tl) = rs ← log_parse n tl; Some (r :: rs).
Proof.
  intros Hr. pose proof (uv_rec r tl Hr) as E. destruct (rec_bytes_cons r) as (x & b & Eb). rewrite Eb in *. cbn [app] in *. cbn [log_parse]. rewrite E. cbn [mbind option_bind].
  rewrite (proj2 (N.ltb_ge _ _)) by (rewrite app_length; lia). rewrite Nat2N.id, drop_app, take_app. done.
Qed.
(** A record that has not arrived as a whole. *)
Lemma parse_cut n r k : rec_ok r -> 0 < k -> k < length (rec_bytes r) -> log_parse n (take k (rec_bytes r)) = None.
Proof.
  intros Hr H0 Hk. destruct n as [|n].
  { destruct (rec_bytes_cons r) as (x & b & ->). destruct k; [lia|]. done. }
  assert (E : uv_get 10 (take k (rec_bytes r)) = None \/ exists j, j < length r /\ uv_get 10 (take k (rec_bytes r)) = Some (N.of_nat (length r), take j r)).
  { unfold rec_bytes in *. rewrite app_length in Hk. destruct (decide (k < length (uv_put 10 (N.of_nat (length r))))) as [Hc|Hc].
    - left. rewrite take_app_le by lia. by apply uv_get_cut.
    - right. exists (k - length (uv_put 10 (N.of_nat (length r)))). split; [lia|]. rewrite take_app_ge by lia. apply uv_get_put; [lia|]. exact Hr. }
  assert (Hne : exists x b, take k (rec_bytes r) = x :: b). { destruct (rec_bytes_cons r) as (x & b & ->). destruct k; [lia|]. cbn. eauto. }
  destruct Hne as (x & b & Eb). rewrite Eb in *. cbn [log_parse]. destruct E as [-> |(j & Hj & ->)]; [done|]. cbn [mbind option_bind].
  rewrite (proj2 (N.ltb_lt _ _)); [done|]. rewrite take_length. lia.
Qed.
Lemma log_bytes_cons r rs : log_bytes (r :: rs) = rec_bytes r ++ log_bytes rs.
Proof. done. Qed.
Lemma log_bytes_app rs rs' : log_bytes (rs ++ rs') = log_bytes rs ++ log_bytes rs'.
Proof. induction rs as [|r rs IH]; [done|]. cbn [app]. by rewrite !log_bytes_cons, IH, app_assoc. Qed.
Lemma log_bytes_len rs : length rs <= length (log_bytes rs).
Proof.
  induction rs as [|r rs IH]; [done|]. rewrite log_bytes_cons, app_length. destruct (rec_bytes_cons r) as (x & b & ->). cbn [length]. lia.
Qed.
Lemma parse_app rs tl : Forall rec_ok rs -> forall n, log_parse (length rs + n) (log_bytes rs ++ tl) = rs' ← log_parse n tl; Some (rs ++ rs').
Proof.
  induction 1 as [|r rs Hr Hrs IH]; intros n; cbn [length Nat.add app].
  - change (log_bytes []) with (@nil N). cbn [app]. by destruct (log_parse n tl).
  - rewrite log_bytes_cons, <- app_assoc, parse_rec, IH by done. by destruct (log_parse n tl).
Qed.
Lemma open_app rs tl : Forall rec_ok rs -> exists n, length tl <= n /\ log_open (log_bytes rs ++ tl) = rs' ← log_parse n tl; Some (rs ++ rs').
Proof.
  intros Hrs. exists (length (log_bytes rs) + length tl - length rs). pose proof (log_bytes_len rs). split; [lia|]. unfold log_open.
  rewrite <- parse_app by done. f_equal. rewrite app_length. lia.
Qed.

(** ** C115 The file of the log after writes that were cut short *)
(** What was written is read. *)
Theorem C115_written_is_read : forall rs, Forall rec_ok rs -> log_open (log_bytes rs) = Some rs.
Proof. intros rs Hrs. destruct (open_app rs [] Hrs) as (n & _ & E). rewrite app_nil_r in E. rewrite E. destruct n; cbn; by rewrite app_nil_r. Qed.
Print Assumptions C115_written_is_read.

(** The process dies when [k] bytes of a batch have arrived.  If they are whole
    records, these are read; if not, the log cannot be opened any more. *)
Lemma cut_at new k : Forall rec_ok new -> 
  (exists j, take k (log_bytes new) = log_bytes (take j new)) \/
  (exists j r i, new !! j = Some r /\ 0 < i < length (rec_bytes r) /\ take k (log_bytes new) = log_bytes (take j new) ++ take i (rec_bytes r)).
Proof.
  intros Hn. revert k. induction Hn as [|r rs Hr Hrs IH]; intros k; [left; exists 0; by destruct k|]. rewrite log_bytes_cons.
  destruct (decide (k < length (rec_bytes r))) as [Hk|Hk].
  - rewrite take_app_le by lia. destruct (decide (k = 0)) as [-> |H0]; [left; exists 0; done|]. right. exists 0, r, k. split_and!; [done|lia|done|done].
  - rewrite take_app_ge by lia. destruct (IH (k - length (rec_bytes r))) as [[j E]|(j & x & i & Hx & Hi & E)]; rewrite E.
    + left. by exists (S j).
    + right. exists (S j), x, i. split_and!; [done|lia|lia|]. cbn [take]. by rewrite log_bytes_cons, <- app_assoc.
Qed.
Theorem C115_cut_exact : forall rs new k, Forall rec_ok rs -> Forall rec_ok new ->
  (exists j, take k (log_bytes new) = log_bytes (take j new) /\ log_open (log_bytes rs ++ take k (log_bytes new)) = Some (rs ++ take j new)) \/
  (forall j, take k (log_bytes new) <> log_bytes (take j new)) /\ log_open (log_bytes rs ++ take k (log_bytes new)) = None.
Proof.
  intros rs new k Hrs Hnew. destruct (cut_at new k Hnew) as [[j E]|(j & r & i & Hj & Hi & E)].
  - left. exists j. split; [done|]. rewrite E, <- log_bytes_app. apply C115_written_is_read. apply Forall_app. split; [done|by apply Forall_take].
  - right. assert (Hnone : forall rs0, Forall rec_ok rs0 -> log_open (log_bytes rs0 ++ log_bytes (take j new) ++ take i (rec_bytes r)) = None).
    { intros rs0 Hrs0. rewrite app_assoc, <- log_bytes_app. destruct (open_app (rs0 ++ take j new) (take i (rec_bytes r))) as (n & _ & ->).
      { apply Forall_app. split; [done|by apply Forall_take]. }
      rewrite parse_cut; [done| |lia|lia]. eapply Forall_lookup_1; [exact Hnew|done]. }
    rewrite E. split; [|by apply Hnone]. intros j' E'. specialize (Hnone [] (Forall_nil_2 _)). cbn [app] in Hnone. change (log_bytes [] ++ ?x) with x in Hnone.
    rewrite E', C115_written_is_read in Hnone by (by apply Forall_take). done.
Qed.
Print Assumptions C115_cut_exact.

(** A crash of a collection as in CallModel (wal_flush_torn) is all that can come of
    it: however many bytes of the batch have arrived, the collection opens as if
    a number of whole records had, or the log is refused. *)
Theorem C115_crash_is_model : forall s k, Forall rec_ok (wlog s) -> Forall rec_ok (batch s).*2 ->
  (exists n, take k (log_bytes (batch s).*2) = log_bytes (take n (batch s).*2) /\
    reopen_file (log_bytes (wlog s) ++ take k (log_bytes (batch s).*2)) (disk_of s) = Some (reopen (disk_of (wal_flush_torn n s)))) \/
  (forall n, take k (log_bytes (batch s).*2) <> log_bytes (take n (batch s).*2)) /\
    reopen_file (log_bytes (wlog s) ++ take k (log_bytes (batch s).*2)) (disk_of s) = None.
Proof.
  intros s k Hl Hb. unfold reopen_file. destruct (C115_cut_exact (wlog s) (batch s).*2 k Hl Hb) as [(n & E & ->)|[E ->]]; [left|by right].
  exists n. split; [done|]. reflexivity.
Qed.
Print Assumptions C115_crash_is_model.
(** And every such crash is the one of some number of bytes. *)
Theorem C115_model_is_crash : forall s n, exists k, take k (log_bytes (batch s).*2) = log_bytes (take n (batch s).*2).
Proof.
  intros s n. exists (length (log_bytes (take n (batch s).*2))). rewrite <- (take_drop n (batch s).*2) at 2. rewrite log_bytes_app. apply take_app.
Qed.
Print Assumptions C115_model_is_crash.

(** The full statement fails twice.  The machine fails when five bytes of the log
    have been written for a second Insert; after that the collection, in which an
    object was acknowledged, cannot be opened. *)
Definition C115_hs : list event * st := Eval vm_compute in default ([], empty_st) (script_exec ex_C_a [SCall (CInsert true 0 (ob_a 1 [7]%N))] empty_st).
Definition C115_s1 : st := Eval vm_compute in default empty_st (fst <$> exec (CollModel.insert ex_C_a 0 false 0 (ob_a 2 [9]%N)) C115_hs.2).
Theorem C115_opens_refuted : exists C h s s1 o k, hist C empty_st h s /\ mjoin (acked <$> h) = [o] /\
  call_cut C s (CInsert false 0 (ob_a 2 [9]%N)) s1 /\ wlog s1 = wlog s /\ Forall rec_ok (wlog s1) /\ Forall rec_ok (batch s1).*2 /\
  reopen_file (log_bytes (wlog s1) ++ take k (log_bytes (batch s1).*2)) (disk_of s1) = None /\
  reopen_file (log_bytes (wlog s1)) (disk_of s1) <> None.
Proof.
  exists ex_C_a, C115_hs.1, C115_hs.2, C115_s1, (Object 0 (o_props (ob_a 1 [7]%N)) (Some [7]%N)), 5.
  split; [apply (script_hist ex_C_a [SCall (CInsert true 0 (ob_a 1 [7]%N))]); vm_compute; reflexivity|].
  split; [vm_compute; reflexivity|].
  split.
  { assert (E : exec (CollModel.insert ex_C_a 0 false 0 (ob_a 2 [9]%N)) C115_hs.2 = Some (C115_s1, Err EIO)) by (vm_compute; reflexivity).
    eapply CutInsert. by eapply exec_rtc. }
  split; [vm_compute; reflexivity|]. split; [repeat (apply Forall_cons; split; [vm_compute; reflexivity|]); constructor|].
  split; [repeat (apply Forall_cons; split; [vm_compute; reflexivity|]); constructor|]. split; [vm_compute; reflexivity|]. vm_compute. discriminate.
Qed.
Print Assumptions C115_opens_refuted.

(** A write fails after five bytes, for want of space; the next succeeds.  The
    Insert is acknowledged, but the log now has half a record in it, and the
    collection panics when it is opened again. *)
Definition C115_s2 : st := Eval vm_compute in default empty_st (fst <$> exec (CollModel.insert ex_C_a 0 true 0 (ob_a 3 [8]%N)) C115_s1).
Definition C115_script : list sev := [SCall (CInsert true 0 (ob_a 1 [7]%N)); SCall (CInsert false 0 (ob_a 2 [9]%N))].
Theorem C115_failed_write_refuted : exists C h s1 s2 o f, hist C empty_st h s1 /\ exec (CollModel.insert C 0 true 0 (ob_a 3 [8]%N)) s1 = Some (s2, Val o) /\
  f = lrun (LFile (log_bytes (wlog s1)) (batch s1).*2) (LFail 5 :: (LAdd <$> drop (length (batch s1)) (drop (length (wlog s1)) (wlog s2))) ++ [LWrite]) /\
  log_open (lf_bytes f) <> Some (wlog s2) /\ reopen_file (lf_bytes f) (disk_of s2) = Some (Pan PIndex) /\
  exists s3, reopen_file (log_bytes (wlog s2)) (disk_of s2) = Some (Val s3).
Proof.
  exists ex_C_a, (default ([], empty_st) (script_exec ex_C_a C115_script empty_st)).1, C115_s1, C115_s2, (Object 2 (o_props (ob_a 3 [8]%N)) (Some [8]%N)). eexists.
  split; [apply (script_hist ex_C_a C115_script); vm_compute; reflexivity|]. split; [vm_compute; reflexivity|]. split; [reflexivity|].
  split; [vm_compute; discriminate|]. split; [vm_compute; reflexivity|]. eexists. vm_compute. reflexivity.
Qed.
Print Assumptions C115_failed_write_refuted.

(** Missing: writes cut inside a record, and failing writes of which something
    arrived.  If those that fail write nothing, the file is always that of the
    records written, in their order, and those in the batch follow. *)
Definition added (e : lev) : list bytes := match e with LAdd r => [r] | _ => [] end.
Definition clean_fail (e : lev) : Prop := match e with LFail k => k = 0 | _ => True end.
Theorem C115_file_partial : forall evs f, f = lrun (LFile [] []) evs -> Forall clean_fail evs -> Forall rec_ok (mjoin (added <$> evs)) ->
  exists rs, log_open (lf_bytes f) = Some rs /\ rs ++ lf_batch f = mjoin (added <$> evs).
Proof.
  intros evs f -> Hc Hr.
  assert (H : forall evs f rs, lf_bytes f = log_bytes rs -> Forall clean_fail evs ->
    exists rs', lf_bytes (lrun f evs) = log_bytes rs' /\ rs' ++ lf_batch (lrun f evs) = rs ++ lf_batch f ++ mjoin (added <$> evs)).
  { clear. induction evs as [|e evs IH]; intros f rs Hf Hc; [exists rs; cbn; by rewrite app_nil_r|]. apply Forall_cons in Hc as [He Hc]. unfold lrun. cbn [foldl fmap list_fmap mjoin list_join].
    destruct e as [r| |k]; cbn [lstep added app].
    - destruct (IH (LFile (lf_bytes f) (lf_batch f ++ [r])) rs Hf Hc) as (rs' & E1 & E2). exists rs'. split; [done|]. unfold lrun in E2. rewrite E2. cbn [lf_batch]. by rewrite <- !app_assoc.
    - destruct (IH (LFile (lf_bytes f ++ log_bytes (lf_batch f)) []) (rs ++ lf_batch f)) as (rs' & E1 & E2); [cbn [lf_bytes]; by rewrite Hf, log_bytes_app|done|].
      exists rs'. split; [done|]. unfold lrun in E2. rewrite E2. cbn [lf_batch app]. by rewrite <- app_assoc.
    - cbn in He. subst k. rewrite take_0, app_nil_r. destruct f as [fb fl]. by apply IH. }
  destruct (H evs (LFile [] []) [] eq_refl Hc) as (rs & E1 & E2). cbn [lf_batch app] in E2. exists rs. split; [|done]. rewrite E1. apply C115_written_is_read.
  rewrite <- E2 in Hr. by apply Forall_app in Hr as [? _].
Qed.
Print Assumptions C115_file_partial.
Definition C115_evs : list lev := [LAdd [0; 7]; LFail 0; LAdd [1; 7]; LWrite; LAdd [4; 7]; LFail 0]%N.
Example C115_case : Forall clean_fail C115_evs /\ Forall rec_ok (mjoin (added <$> C115_evs)) /\ log_open (lf_bytes (lrun (LFile [] []) C115_evs)) = Some [[0; 7]; [1; 7]]%N.
Proof. split; [repeat constructor|]. split; [repeat constructor|]. vm_compute. reflexivity. Qed.
(** Cuts of every kind: inside the length, inside the record, between records. *)
Example C115_cut_case : (fun k => log_open (log_bytes [[9]]%N ++ take k (log_bytes [[5; 6]; replicate 200 1]%N))) <$> [0; 1; 3; 4; 5; 205] =
  [Some [[9]]; None; Some [[9]; [5; 6]]; None; None; Some [[9]; [5; 6]; replicate 200 1]]%N.
Proof. vm_compute. reflexivity. Qed.
