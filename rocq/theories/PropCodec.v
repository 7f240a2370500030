(** Properties of stored bytes: C02, C03, C04, C10. *)
From Verif Require Import GoBase FloatModel ProgModel StateModel WalModel StoreModel HnswModel CollModel.
From Verif Require Import ProofBase CodecProofs CodecSpec LogProofs.
Open Scope nat_scope.

(** ** C02 Id counter file survives every value *)

(** Whatever the file held, an id request hands out the current count and
    leaves a file that the next open reads as that count plus one. *)
Theorem C02_counter_file_roundtrip :
  forall s s' id,
    (cnt s + 1 < 2 ^ 64)%N -> closed s = false ->
    exec fetch_and_inc s = Some (s', Val id) ->
    id = cnt s /\ open_counter (cfile s') = Val (id + 1)%N /\
    length (cfile s') = Nat.max 8 (length (cfile s)).
Proof.
  intros s s' id Hc Ho. unfold fetch_and_inc, act. cbn [exec]. rewrite Ho, u64_small by done.
  intros [<- Hid%Val_inj]%Some_pair_inj. subst id. split; [done|]. cbn [cfile set_cnt].
  assert (le_get 8 (le_put 8 (cnt s + 1) ++ drop 8 (cfile s)) = Some (cnt s + 1)%N) as E.
  { apply le_get_put_app. by rewrite pow256_8. }
  split; [|rewrite app_length, le_put_length, drop_length; lia].
  unfold open_counter. rewrite E. by destruct (le_put 8 _ ++ _).
Qed.
Print Assumptions C02_counter_file_roundtrip.

Example C02_case : exists s', exec fetch_and_inc (set_cnt 255 [255;0;0;0;0;0;0;0]%N empty_st) = Some (s', Val 255%N)
  /\ cfile s' = [0;1;0;0;0;0;0;0]%N.
Proof. eexists. by vm_compute. Qed.

(** Exactly the length of the file decides: empty is 0, 1..7 bytes fail, 8 or
    more succeed. *)
Theorem C02_counter_file_lengths :
  forall f,
    (length f = 0 -> open_counter f = Val 0%N) /\
    (0 < length f < 8 -> open_counter f = Err EUnexpectedEOF) /\
    (8 <= length f -> exists c, open_counter f = Val c).
Proof.
  intros f. split_and!.
  - by destruct f.
  - intros [H1 H2]. destruct f as [|x f]; [cbn in H1; lia|]. unfold open_counter. by rewrite le_get_short.
  - intros H. destruct f as [|x f]; [cbn in H; lia|]. unfold open_counter.
    destruct (le_get_long 8 (x :: f)) as [c ->]; [done|]. by eexists.
Qed.
Print Assumptions C02_counter_file_lengths.

(** ** C03 Vectors are stored bit for bit *)
Theorem C03_vector_bits_roundtrip :
  forall v, vec_ok v -> exists b, ser_vec v = Val b /\
    length b = 4 + 4 * length v /\ Forall byte_ok b /\
    forall suf, de_vec (b ++ suf) = Val v.
Proof.
  intros v Hv. eexists. split; [apply ser_vec_eq|]. split_and!.
  - rewrite app_length, le_put_length, le_floats_length. done.
  - apply Forall_app. split; [apply le_put_bytes|]. unfold le_floats.
    clear Hv. induction v as [|x v IH]; [constructor|]. cbn [fmap list_fmap mjoin list_join].
    apply Forall_app. split; [apply le_put_bytes|done].
  - intros suf. eapply de_ser_vec; [exact Hv|apply ser_vec_eq].
Qed.
Print Assumptions C03_vector_bits_roundtrip.

(** A signalling NaN, -0, +infinity and a subnormal. *)
Example C03_case : vec_ok [2141192193; 2147483648; 2139095040; 1]%N.
Proof. split; [repeat constructor|done]. Qed.

(** ** C04 Stored properties are framed losslessly *)
Theorem C04_properties_framing :
  forall J p js, j_enc J p = Some js -> (N.of_nat (length js) < 2 ^ 32)%N ->
    exists b, ser_props J p = Val b /\ forall suf,
      de_props J (b ++ suf) = match j_dec J js with Some q => Val q | None => Err EJSON end.
Proof.
  intros J p js E Hl. eexists. split; [by apply ser_props_eq|]. intros suf.
  destruct (de_ser_props J p js suf E Hl) as (b & E1 & E2).
  rewrite (ser_props_eq J p js E) in E1. apply Val_inj in E1. by subst.
Qed.
Print Assumptions C04_properties_framing.

Example C04_case : let J := Json (fun _ => Some [123; 125]%N) (fun b => if bool_decide (b = [123;125]%N) then Some ∅ else None) in
  ser_props J ∅ = Val [2;0;0;0;123;125]%N /\ de_props J [2;0;0;0;123;125;99]%N = Val ∅.
Proof. done. Qed.

(** ** C10 Index log records decode to what was encoded *)
Theorem C10_log_records_roundtrip :
  forall o, wop_ok o -> exists r, enc_wop o = Val r /\ forall s, restore r s = wop_apply o s.
Proof.
  intros o Ho. destruct (enc_wop_total o) as [r Hr]. exists r. split; [done|].
  intros s. by apply restore_wop.
Qed.
Print Assumptions C10_log_records_roundtrip.

(** No two operations have the same record. *)
Theorem C10_log_records_injective :
  forall o1 o2 r, wop_ok o1 -> wop_ok o2 -> enc_wop o1 = Val r -> enc_wop o2 = Val r -> o1 = o2.
Proof. exact enc_wop_inj. Qed.
Print Assumptions C10_log_records_injective.

Theorem C10_unknown_opcode_is_error :
  forall op r s, (4 < op)%N -> restore (op :: r) s = Err (EOpcode op).
Proof. exact restore_unknown. Qed.
Print Assumptions C10_unknown_opcode_is_error.

Example C10_case : wop_ok (WSetConns 18446744073709551615 3 [7; 18446744073709551614]%N).
Proof. repeat split; repeat constructor. Qed.
