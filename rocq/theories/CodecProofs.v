(** Round trips of the byte-level codecs. *)
From Verif Require Import GoBase FloatModel ProgModel StateModel WalModel StoreModel CollModel.
From Verif Require Import ProofBase.
Open Scope nat_scope.

(** ** Little-endian integers *)
Lemma le_put_length k x : length (le_put k x) = k.
Proof. revert x; induction k as [|k IH]; intros x; cbn [le_put length]; [done|]. by rewrite IH. Qed.

Lemma le_put_mod k x : le_put k (x mod 256 ^ N.of_nat k) = le_put k x.
Proof.
  revert x. induction k as [|k IH]; intros x; [done|]. cbn [le_put].
  rewrite Nat2N.inj_succ, N.pow_succ_r', N.mod_mul_r by (try apply N.pow_nonzero; lia).
  rewrite (N.mul_comm 256), N.mod_add, N.div_add, N.mod_mod by lia. f_equal.
  rewrite (N.div_small (x mod 256)), N.add_0_l by (by apply N.mod_lt). apply IH.
Qed.

Lemma le_put_bytes k x : Forall byte_ok (le_put k x).
Proof.
  revert x; induction k as [|k IH]; intros x; cbn [le_put]; constructor; [|done].
  unfold byte_ok. apply N.mod_lt. lia.
Qed.

Lemma le_get_put_app k x rest :
  (x < 256 ^ N.of_nat k)%N -> le_get k (le_put k x ++ rest) = Some x.
Proof.
  revert x; induction k as [|k IH]; intros x Hx; cbn [le_put le_get app].
  - f_equal. change (256 ^ N.of_nat 0)%N with 1%N in Hx. lia.
  - rewrite IH.
    + f_equal. rewrite (N.div_mod x 256) at 3 by lia. lia.
    + rewrite Nat2N.inj_succ, N.pow_succ_r' in Hx. apply N.div_lt_upper_bound; lia.
Qed.

Lemma le_get_put k x : (x < 256 ^ N.of_nat k)%N -> le_get k (le_put k x) = Some x.
Proof. intros Hx. rewrite <- (app_nil_r (le_put k x)). by apply le_get_put_app. Qed.

Lemma le_get_bound k b x : Forall byte_ok b -> le_get k b = Some x -> (x < 256 ^ N.of_nat k)%N.
Proof.
  revert b x; induction k as [|k IH]; intros b x Hb Hx; cbn [le_get] in Hx.
  - injection Hx as <-. change (256 ^ N.of_nat 0)%N with 1%N. lia.
  - destruct b as [|y b]; [done|]. inversion_clear Hb as [|?? Hy Hb'].
    destruct (le_get k b) as [r|] eqn:Hr; [|done]. injection Hx as <-.
    specialize (IH _ _ Hb' Hr). rewrite Nat2N.inj_succ, N.pow_succ_r'. unfold byte_ok in Hy.
    revert IH. generalize (256 ^ N.of_nat k)%N. intros q IH. lia.
Qed.

Lemma le_get_short k b : length b < k -> le_get k b = None.
Proof.
  revert b; induction k as [|k IH]; intros b Hb; [lia|]. cbn [le_get].
  destruct b as [|y b]; [done|]. cbn [length] in Hb. rewrite IH; [done|lia].
Qed.

Lemma le_get_long k b : k <= length b -> exists x, le_get k b = Some x.
Proof.
  revert b; induction k as [|k IH]; intros b Hb; [by eexists|]. cbn [le_get].
  destruct b as [|y b]; cbn [length] in Hb; [lia|]. destruct (IH b) as [x ->]; [lia|]. by eexists.
Qed.

Lemma le_put_get k b x : Forall byte_ok b -> length b = k -> le_get k b = Some x -> le_put k x = b.
Proof.
  revert b x; induction k as [|k IH]; intros b x Hb Hl Hx; cbn [le_get le_put] in *.
  - by destruct b.
  - destruct b as [|y b]; [done|]. inversion_clear Hb as [|?? Hy Hb'].
    destruct (le_get k b) as [r|] eqn:Hr; [|done]. injection Hx as <-. unfold byte_ok in Hy.
    assert ((y + 256 * r) mod 256 = y)%N as ->.
    { rewrite N.mul_comm, N.mod_add by lia. by apply N.mod_small. }
    assert ((y + 256 * r) / 256 = r)%N as ->.
    { rewrite N.mul_comm, N.div_add by lia. rewrite N.div_small by lia. lia. }
    f_equal. apply IH; auto.
Qed.

Lemma le_put_inj k x y :
  (x < 256 ^ N.of_nat k)%N -> (y < 256 ^ N.of_nat k)%N -> le_put k x = le_put k y -> x = y.
Proof. intros Hx Hy E. apply le_get_put in Hx, Hy. rewrite E in Hx. congruence. Qed.

Lemma pow256_4 : (256 ^ N.of_nat 4 = 2 ^ 32)%N. Proof. reflexivity. Qed.
Lemma pow256_8 : (256 ^ N.of_nat 8 = 2 ^ 64)%N. Proof. reflexivity. Qed.

(** ** Sequential writing into a zeroed buffer: each write lands right after
    the previous one. *)
Lemma put_at_app (pre data suf : bytes) off :
  off = length pre -> length data <= length suf ->
  put_at (pre ++ suf) off data = Val (pre ++ data ++ drop (length data) suf).
Proof.
  intros -> Hl. unfold put_at. rewrite decide_True by (rewrite app_length; lia).
  f_equal. rewrite take_app, drop_app_ge by lia. f_equal. f_equal. f_equal. lia.
Qed.

Lemma put_at_zero (pre data : bytes) off n :
  off = length pre -> length data <= n ->
  put_at (pre ++ zero_bytes n) off data = Val ((pre ++ data) ++ zero_bytes (n - length data)).
Proof.
  intros Hoff Hl. unfold zero_bytes. rewrite put_at_app by (rewrite ?replicate_length; lia).
  f_equal. rewrite drop_replicate. by rewrite app_assoc.
Qed.

Lemma put_u32_zero pre off n x :
  off = length pre -> 4 <= n ->
  put_u32 (pre ++ zero_bytes n) off x = Val ((pre ++ le_put 4 x) ++ zero_bytes (n - 4)).
Proof. intros. unfold put_u32. by rewrite put_at_zero by (rewrite ?le_put_length; lia). Qed.
Lemma put_u64_zero pre off n x :
  off = length pre -> 8 <= n ->
  put_u64 (pre ++ zero_bytes n) off x = Val ((pre ++ le_put 8 x) ++ zero_bytes (n - 8)).
Proof. intros. unfold put_u64. by rewrite put_at_zero by (rewrite ?le_put_length; lia). Qed.

Lemma get_u32_app pre off x suf :
  off = length pre -> (x < 2 ^ 32)%N -> get_u32 (pre ++ le_put 4 x ++ suf) off = Val x.
Proof.
  intros -> Hx. unfold get_u32. rewrite decide_True by (rewrite app_length; lia).
  rewrite drop_app. rewrite le_get_put_app; [done|]. by rewrite pow256_4.
Qed.
Lemma get_u64_app pre off x suf :
  off = length pre -> (x < 2 ^ 64)%N -> get_u64 (pre ++ le_put 8 x ++ suf) off = Val x.
Proof.
  intros -> Hx. unfold get_u64. rewrite decide_True by (rewrite app_length; lia).
  rewrite drop_app. rewrite le_get_put_app; [done|]. by rewrite pow256_8.
Qed.

Lemma get_u32_head x suf : (x < 2 ^ 32)%N -> get_u32 (le_put 4 x ++ suf) 0 = Val x.
Proof. intros. by apply (get_u32_app []). Qed.
Lemma get_u64_head x suf : (x < 2 ^ 64)%N -> get_u64 (le_put 8 x ++ suf) 0 = Val x.
Proof. intros. by apply (get_u64_app []). Qed.

Lemma u32_small x : (x < 2 ^ 32)%N -> u32 x = x.
Proof. apply N.mod_small. Qed.
Lemma u64_small x : (x < 2 ^ 64)%N -> u64 x = x.
Proof. apply N.mod_small. Qed.
Lemma u32_lt x : (u32 x < 2 ^ 32)%N.
Proof. apply N.mod_lt. lia. Qed.
Lemma u64_lt x : (u64 x < 2 ^ 64)%N.
Proof. apply N.mod_lt. lia. Qed.

Lemma zero_nil pre n : n = 0 -> pre ++ zero_bytes n = pre.
Proof. intros ->. apply app_nil_r. Qed.

(** ** Log records: the bytes *)
Definition le_ids (ns : list N) : bytes := mjoin (le_put 8 <$> ns).
Lemma le_ids_length ns : length (le_ids ns) = 8 * length ns.
Proof.
  induction ns as [|n ns IH]; [done|]. unfold le_ids in *. cbn [fmap list_fmap mjoin list_join length].
  rewrite app_length, le_put_length. change (mjoin (le_put 8 <$> ns)) with (le_ids ns) in *. lia.
Qed.

Lemma put_ids_zero pre off ns n :
  off = length pre -> n = 8 * length ns ->
  put_ids (pre ++ zero_bytes n) off ns = Val (pre ++ le_ids ns).
Proof.
  revert pre off n; induction ns as [|x ns IH]; intros pre off n Hoff Hn; cbn [put_ids].
  - rewrite zero_nil by (cbn [length] in Hn; lia). unfold le_ids. by rewrite app_nil_r.
  - cbn [length] in Hn. rewrite put_u64_zero by lia. cbn [mbind out_bind].
    rewrite IH; [|rewrite app_length, le_put_length; lia|lia].
    unfold le_ids. cbn [fmap list_fmap mjoin list_join]. by rewrite <- app_assoc.
Qed.

Ltac run_puts :=
  repeat first
    [ rewrite put_u64_zero by (rewrite ?app_length, ?le_put_length; cbn [length]; lia)
    | rewrite put_u32_zero by (rewrite ?app_length, ?le_put_length; cbn [length]; lia)
    | progress cbn [mbind out_bind] ].

Lemma put_op_zero op n : 0 < n -> put_op (zero_bytes n) op = Val ([op] ++ zero_bytes (n - 1)).
Proof.
  intros Hn. unfold put_op. change (zero_bytes n) with ([] ++ zero_bytes n).
  rewrite put_at_zero by (cbn [length]; lia). done.
Qed.

Lemma enc_add_vertex_eq id level :
  enc_add_vertex id level = Val (opAddVertex :: le_put 8 id ++ le_put 4 (u32 (N.of_nat level))).
Proof.
  unfold enc_add_vertex. rewrite put_op_zero by lia. run_puts.
  rewrite zero_nil by lia. by rewrite <- app_assoc.
Qed.
Lemma enc_set_entry_eq id level :
  enc_set_entry id level = Val (opSetEntry :: le_put 8 id ++ le_put 4 (u32 (N.of_nat level))).
Proof.
  unfold enc_set_entry. rewrite put_op_zero by lia. run_puts.
  rewrite zero_nil by lia. by rewrite <- app_assoc.
Qed.
Lemma enc_add_conn_eq id level n :
  enc_add_conn id level n =
    Val (opAddConn :: le_put 8 id ++ le_put 4 (u32 (N.of_nat level)) ++ le_put 8 n).
Proof.
  unfold enc_add_conn. rewrite put_op_zero by lia. run_puts.
  rewrite zero_nil by lia. by rewrite <- !app_assoc.
Qed.
Lemma enc_set_conns_eq id level ns :
  enc_set_conns id level ns =
    Val (opSetConns :: le_put 8 id ++ le_put 4 (u32 (N.of_nat level)) ++
         le_put 4 (u32 (N.of_nat (length ns))) ++ le_ids ns).
Proof.
  unfold enc_set_conns. rewrite put_op_zero by lia. run_puts.
  rewrite put_ids_zero; [|rewrite !app_length, !le_put_length; cbn [length]; lia|lia].
  by rewrite <- !app_assoc.
Qed.
Lemma enc_delete_eq id : enc_delete id = Val (opDelete :: le_put 8 id).
Proof.
  unfold enc_delete. rewrite put_op_zero by lia. run_puts. by rewrite zero_nil by lia.
Qed.

(** ** Log records: decoding *)
Lemma get_ids_app pre off ns suf :
  off = length pre -> Forall (fun n => (n < 2 ^ 64)%N) ns ->
  get_ids (pre ++ le_ids ns ++ suf) off (length ns) = Val ns.
Proof.
  revert pre off; induction ns as [|n ns IH]; intros pre off Hoff Hns; cbn [length get_ids]; [done|].
  inversion_clear Hns as [|?? Hn Hns'].
  change (le_ids (n :: ns)) with (le_put 8 n ++ le_ids ns). rewrite <- app_assoc.
  rewrite get_u64_app by done. cbn [mbind out_bind].
  rewrite (app_assoc pre), IH; [done| |done]. rewrite app_length, le_put_length. lia.
Qed.

Section decode.
  Context (id : N) (level : nat) (Hid : (id < 2 ^ 64)%N) (Hl : (N.of_nat level < 2 ^ 32)%N).

  Lemma get_id_level suf :
    get_u64 (le_put 8 id ++ le_put 4 (u32 (N.of_nat level)) ++ suf) 0 = Val id /\
    get_u32 (le_put 8 id ++ le_put 4 (u32 (N.of_nat level)) ++ suf) 8 = Val (N.of_nat level).
  Proof using Hid Hl.
    split.
    - apply get_u64_head; done.
    - rewrite get_u32_app; [by rewrite u32_small| |apply u32_lt]. by rewrite le_put_length.
  Qed.

  Lemma restore_add_vertex r s :
    enc_add_vertex id level = Val r ->
    restore r s = Val (set_nodes (<[id := Vertex (init_conns level) [] None]> (nodes s)) s).
  Proof using Hid Hl.
    rewrite enc_add_vertex_eq. intros <-%Val_inj. cbn [restore].
    change (opAddVertex =? opAddVertex)%N with true. cbn iota. unfold de_add_vertex.
    pose proof (get_id_level []) as [E1 E2]. rewrite app_nil_r in E1, E2.
    rewrite E1. cbn [mbind out_bind]. rewrite E2. cbn [mbind out_bind]. by rewrite Nat2N.id.
  Qed.

  Lemma restore_set_entry r s :
    enc_set_entry id level = Val r -> restore r s = Val (set_entry id level s).
  Proof using Hid Hl.
    rewrite enc_set_entry_eq. intros <-%Val_inj. cbn [restore].
    change (opSetEntry =? opAddVertex)%N with false.
    change (opSetEntry =? opSetEntry)%N with true. cbn iota. unfold de_set_entry.
    pose proof (get_id_level []) as [E1 E2]. rewrite app_nil_r in E1, E2.
    rewrite E1. cbn [mbind out_bind]. rewrite E2. cbn [mbind out_bind]. by rewrite Nat2N.id.
  Qed.

  Lemma restore_add_conn r s n :
    (n < 2 ^ 64)%N -> enc_add_conn id level n = Val r ->
    restore r s =
      (v ← or_pan PNil (nodes s !! id);
       v' ← vertex_add_conn v level n;
       Val (set_nodes (<[id := v']> (nodes s)) s)).
  Proof using Hid Hl.
    intros Hn. rewrite enc_add_conn_eq. intros <-%Val_inj. cbn [restore].
    change (opAddConn =? opAddVertex)%N with false.
    change (opAddConn =? opSetEntry)%N with false.
    change (opAddConn =? opSetConns)%N with false.
    change (opAddConn =? opAddConn)%N with true. cbn iota. unfold de_add_conn.
    pose proof (get_id_level (le_put 8 n)) as [E1 E2].
    rewrite E1. cbn [mbind out_bind]. rewrite E2. cbn [mbind out_bind].
    assert (get_u64 (le_put 8 id ++ le_put 4 (u32 (N.of_nat level)) ++ le_put 8 n) 12 = Val n) as ->.
    { rewrite app_assoc. rewrite <- (app_nil_r (le_put 8 n)). apply get_u64_app; [|done].
      by rewrite app_length, !le_put_length. }
    cbn [mbind out_bind]. by rewrite Nat2N.id.
  Qed.

  Lemma restore_set_conns r s ns :
    Forall (fun n => (n < 2 ^ 64)%N) ns -> (N.of_nat (length ns) < 2 ^ 32)%N ->
    enc_set_conns id level ns = Val r ->
    restore r s =
      (v ← or_pan PNil (nodes s !! id);
       v' ← vertex_set_conns v level ns;
       Val (set_nodes (<[id := v']> (nodes s)) s)).
  Proof using Hid Hl.
    intros Hns Hlen. rewrite enc_set_conns_eq. intros <-%Val_inj. cbn [restore].
    change (opSetConns =? opAddVertex)%N with false.
    change (opSetConns =? opSetEntry)%N with false.
    change (opSetConns =? opSetConns)%N with true. cbn iota. unfold de_set_conns.
    pose proof (get_id_level (le_put 4 (u32 (N.of_nat (length ns))) ++ le_ids ns)) as [E1 E2].
    rewrite E1. cbn [mbind out_bind]. rewrite E2. cbn [mbind out_bind].
    rewrite (app_assoc (le_put 8 id)).
    rewrite get_u32_app; [|by rewrite app_length, !le_put_length|apply u32_lt].
    cbn [mbind out_bind]. rewrite (u32_small (N.of_nat (length ns))) by done. rewrite !Nat2N.id.
    rewrite (app_assoc (_ ++ _)). rewrite <- (app_nil_r (le_ids ns)).
    rewrite get_ids_app; [|by rewrite !app_length, !le_put_length|done].
    done.
  Qed.

  Lemma restore_delete r s :
    enc_delete id = Val r -> restore r s = Val (set_deleted ({[id]} ∪ deleted s) s).
  Proof using Hid.
    rewrite enc_delete_eq. intros <-%Val_inj. cbn [restore].
    change (opDelete =? opAddVertex)%N with false.
    change (opDelete =? opSetEntry)%N with false.
    change (opDelete =? opSetConns)%N with false.
    change (opDelete =? opAddConn)%N with false.
    change (opDelete =? opDelete)%N with true. cbn iota. unfold de_delete.
    rewrite <- (app_nil_r (le_put 8 id)). rewrite get_u64_head by done. done.
  Qed.
End decode.

(** ** Vectors *)
Definition le_floats (v : fvec) : bytes := mjoin (le_put 4 <$> v).
Lemma le_floats_length v : length (le_floats v) = 4 * length v.
Proof.
  induction v as [|n v IH]; [done|]. unfold le_floats in *. cbn [fmap list_fmap mjoin list_join length].
  rewrite app_length, le_put_length. change (mjoin (le_put 4 <$> v)) with (le_floats v) in *. lia.
Qed.

Lemma put_floats_zero pre off v n :
  off = length pre -> n = 4 * length v ->
  put_floats (pre ++ zero_bytes n) off v = Val (pre ++ le_floats v).
Proof.
  revert pre off n; induction v as [|x v IH]; intros pre off n Hoff Hn; cbn [put_floats].
  - rewrite zero_nil by (cbn [length] in Hn; lia). unfold le_floats. by rewrite app_nil_r.
  - cbn [length] in Hn. rewrite put_u32_zero by lia. cbn [mbind out_bind].
    rewrite IH; [|rewrite app_length, le_put_length; lia|lia].
    unfold le_floats. cbn [fmap list_fmap mjoin list_join]. by rewrite <- app_assoc.
Qed.

Lemma ser_vec_eq v : ser_vec v = Val (le_put 4 (u32 (N.of_nat (length v))) ++ le_floats v).
Proof.
  unfold ser_vec. change (zero_bytes (4 + 4 * length v)) with ([] ++ zero_bytes (4 + 4 * length v)).
  rewrite put_u32_zero by (cbn [length]; lia). cbn [mbind out_bind].
  rewrite put_floats_zero; [done| |lia]. cbn [app]. by rewrite le_put_length.
Qed.

Lemma get_floats_app pre off v suf :
  off = length pre -> Forall (fun f => (f < 2 ^ 32)%N) v ->
  get_floats (pre ++ le_floats v ++ suf) off (length v) = Val v.
Proof.
  revert pre off; induction v as [|n v IH]; intros pre off Hoff Hv; cbn [length get_floats]; [done|].
  inversion_clear Hv as [|?? Hn Hv'].
  change (le_floats (n :: v)) with (le_put 4 n ++ le_floats v). rewrite <- app_assoc.
  rewrite get_u32_app by done. cbn [mbind out_bind].
  rewrite (app_assoc pre), IH; [done| |done]. rewrite app_length, le_put_length. lia.
Qed.

(** A vector of float32 bit patterns that Go can hold. *)
Definition vec_wf (v : fvec) : Prop :=
  Forall (fun f => (f < 2 ^ 32)%N) v /\ (N.of_nat (length v) < 2 ^ 32)%N.

Lemma de_ser_vec v suf b :
  vec_wf v -> ser_vec v = Val b -> de_vec (b ++ suf) = Val v.
Proof.
  intros [Hv Hl]. rewrite ser_vec_eq. intros <-%Val_inj. unfold de_vec.
  rewrite <- app_assoc. rewrite get_u32_head by (done || apply u32_lt). cbn [mbind out_bind].
  rewrite u32_small by done. rewrite Nat2N.id. apply get_floats_app; [by rewrite le_put_length|done].
Qed.

(** ** Properties *)
Lemma ser_props_eq J p js :
  j_enc J p = Some js -> ser_props J p = Val (le_put 4 (u32 (N.of_nat (length js))) ++ js).
Proof.
  intros E. unfold ser_props. rewrite E.
  change (zero_bytes (4 + length js)) with ([] ++ zero_bytes (4 + length js)).
  rewrite put_u32_zero by (cbn [length]; lia). cbn [mbind out_bind app].
  rewrite put_at_zero by (rewrite ?le_put_length; lia). by rewrite zero_nil by lia.
Qed.

Lemma de_ser_props J p js suf :
  j_enc J p = Some js -> (N.of_nat (length js) < 2 ^ 32)%N ->
  exists b, ser_props J p = Val b /\
    de_props J (b ++ suf) = match j_dec J js with Some q => Val q | None => Err EJSON end.
Proof.
  intros E Hl. eexists. split; [by apply ser_props_eq|]. unfold de_props.
  rewrite <- app_assoc. rewrite get_u32_head by (done || apply u32_lt). cbn [mbind out_bind].
  rewrite u32_small by done. rewrite Nat2N.id. unfold slice.
  rewrite decide_True by (rewrite !app_length, le_put_length; lia). cbn [mbind out_bind].
  rewrite drop_app_alt by (by rewrite le_put_length).
  replace (4 + length js - 4) with (length js) by lia. by rewrite take_app.
Qed.
