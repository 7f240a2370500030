(** Running dot.s: what the assembly dot product computes. *)
From Verif Require Import GoBase FloatModel AsmModel ProofBase.
From Coq Require Import SpecFloat.
Open Scope nat_scope.

(** What the program computes, without the machine: six accumulators of eight
    lanes over the blocks of 48 components, one over the rest, and a tree of
    additions. *)
Definition vals (n : nat) (v : fvec) : list fl := f32_val <$> take n v.
Definition acc_step (x y : fvec) (i : nat) (a : ymm) : ymm := fma_lanes (vals 8 (drop (8 * i) x)) (vals 8 (drop (8 * i) y)) a.
Fixpoint blocks (nb : nat) (x y : fvec) (acc : list ymm) : list ymm :=
  match nb with
  | O => acc
  | S nb' => blocks nb' (drop 48 x) (drop 48 y) (imap (acc_step x y) acc)
  end.
Fixpoint tail_sum (x y : fvec) (t : fl) : fl :=
  match x, y with
  | a :: x', b :: y' => tail_sum x' y' (ffma (f32_val a) (f32_val b) t)
  | _, _ => t
  end.
Definition reduce (acc : list ymm) (t : fl) : fl :=
  match acc with
  | [a0; a1; a2; a3; a4; a5] =>
      match lanes fadd a5 (lanes fadd a4 (lanes fadd a3 (lanes fadd a2 (lanes fadd a1 a0)))) with
      | [b0; b1; b2; b3; b4; b5; b6; b7] =>
          fadd (fadd (fadd t (fadd b4 b0)) (fadd fzero (fadd b5 b1))) (fadd (fadd fzero (fadd b6 b2)) (fadd fzero (fadd b7 b3)))
      | _ => fzero
      end
  | _ => fzero
  end.
Definition asm_dot (x y : fvec) : fl :=
  let nb := length x / 48 in
  reduce (blocks nb x y (replicate 6 yzero)) (tail_sum (drop (48 * nb) x) (drop (48 * nb) y) fzero).

(** The slice [v] lies at address [a]. *)
Definition holds (mem : Z -> option f32) (a : Z) (v : fvec) : Prop :=
  forall i w, v !! i = Some w -> mem (a + 4 * Z.of_nat i)%Z = Some w.
Lemma holds_drop mem a v k : holds mem a v -> holds mem (a + 4 * Z.of_nat k) (drop k v).
Proof. intros H i w Hi. pose proof (eq_trans (eq_sym (lookup_drop v k i)) Hi) as Hi'. rewrite <- (H _ _ Hi'). f_equal. lia. Qed.
Lemma load_holds mem n : forall a v, holds mem a v -> n <= length v -> load mem a n = Some (vals n v).
Proof.
  induction n as [|n IH]; intros a v H Hn; [done|]. destruct v as [|w v]; [cbn in Hn; lia|]. cbn [load].
  pose proof (H 0 w eq_refl) as H0. rewrite Z.add_0_r in H0. rewrite H0.
  rewrite (IH (a + 4)%Z v); [done| |cbn in Hn; lia]. intros i u Hi. rewrite <- (H (S i) u Hi). f_equal. lia.
Qed.
Lemma load_at mem n a off v k : holds mem a v -> off = (4 * Z.of_nat k)%Z -> k + n <= length v -> load mem (a + off) n = Some (vals n (drop k v)).
Proof. intros H -> Hn. apply load_holds; [by apply holds_drop|]. rewrite drop_length. lia. Qed.
Lemma wrap_id z : (- 2 ^ 63 <= z < 2 ^ 63)%Z -> wrap z = z.
Proof. intros H. unfold wrap. rewrite Z.mod_small by lia. lia. Qed.

  Ltac one := eapply EndStep; [unfold AsmModel.mnext; cbn [m_pc]; 
      match goal with |- context [dot_s !! ?n] => let i := eval cbv in (dot_s !! n) in change (dot_s !! n) with i end;
      cbn [istep getr gety setr sety setx next goto m_pc m_ax m_cx m_dx m_cmp m_y m_ret insert list_insert lookup list_lookup default option_map from_option id];
      reflexivity|];
    cbn [istep getr gety setr sety setx next goto m_pc m_ax m_cx m_dx m_cmp m_y m_ret insert list_insert lookup list_lookup default option_map from_option id].
  Ltac load8 H := eapply EndStep; [unfold AsmModel.mnext; cbn [m_pc]; 
      match goal with |- context [dot_s !! ?n] => let i := eval cbv in (dot_s !! n) in change (dot_s !! n) with i end;
      cbn [istep getr gety setr sety setx next goto m_pc m_ax m_cx m_dx m_cmp m_y m_ret insert list_insert lookup list_lookup default option_map from_option id];
      rewrite H; reflexivity|];
    cbn [istep getr gety setr sety setx next goto m_pc m_ax m_cx m_dx m_cmp m_y m_ret insert list_insert lookup list_lookup default option_map from_option id].

  Lemma fma_lanes_length a : forall b d, length a = length d -> length b = length d -> length (fma_lanes a b d) = length d.
  Proof. induction a as [|x a IH]; intros [|y b] [|z d]; cbn; intros; try lia. rewrite IH; lia. Qed.
  Lemma vals_length n v : n <= length v -> length (vals n v) = n.
  Proof. intros H. unfold vals. rewrite fmap_length, take_length. lia. Qed.
  Lemma blocks_length nb : forall x y acc, nb = length x / 48 -> length x <= length y -> length acc = 6 -> Forall (fun v => length v = 8) acc ->
    length (blocks nb x y acc) = 6 /\ Forall (fun v => length v = 8) (blocks nb x y acc).
  Proof.
    induction nb as [|nb IH]; intros x y acc Hnb Hl Ha HF; cbn [blocks]; [done|].
    assert (Hge : 48 <= length x). { destruct (decide (48 <= length x)); [done|]. rewrite Nat.div_small in Hnb; lia. }
    apply IH.
    - rewrite drop_length. replace (length x) with (length x - 48 + 1 * 48) in Hnb by lia. rewrite Nat.div_add in Hnb by lia. lia.
    - rewrite !drop_length. lia.
    - by rewrite imap_length.
    - apply Forall_lookup. intros i v. rewrite list_lookup_imap, fmap_Some. intros (u & E & ->).
      assert (Hi : i < 6) by (rewrite <- Ha; by eapply lookup_lt_Some). rewrite Forall_lookup in HF. pose proof (HF _ _ E) as Hu. unfold acc_step.
      assert (H1 : length (vals 8 (drop (8 * i) x)) = 8) by (apply vals_length; rewrite drop_length; lia).
      assert (H2 : length (vals 8 (drop (8 * i) y)) = 8) by (apply vals_length; rewrite drop_length; lia).
      rewrite fma_lanes_length; congruence.
  Qed.
Section run.
  Context (xb yb xlen : Z) (mem : Z -> option f32).
  Local Notation ends := (ends xb yb xlen mem).
  Local Notation mnext := (mnext xb yb xlen mem).

  Definition small (a : Z) (n : nat) : Prop := (0 <= a /\ a + 4 * Z.of_nat n < 2 ^ 63)%Z.

  (** One round of the block loop. *)
  Lemma block_round a b x y cmp a0 a1 a2 a3 a4 a5 r6 r7 r8 r9 r10 r11 ret o :
    holds mem a x -> holds mem b y -> 48 <= length x -> length x <= length y -> small a (length x) -> small b (length x) ->
    (forall cmp' r6 r7 r8 r9 r10 r11,
     ends (Mach 9 (a + 192) (b + 192) (Z.of_nat (length (drop 48 x))) cmp' [acc_step x y 0 a0; acc_step x y 1 a1; acc_step x y 2 a2; acc_step x y 3 a3; acc_step x y 4 a4; acc_step x y 5 a5; r6; r7; r8; r9; r10; r11] ret) o) ->
    ends (Mach 9 a b (Z.of_nat (length x)) cmp [a0; a1; a2; a3; a4; a5; r6; r7; r8; r9; r10; r11] ret) o.
  Proof.
    intros Hx Hy H48 Hl [Ha1 Ha2] [Hb1 Hb2] Hk.
    one. one. one.
    destruct (Z.ltb_spec (Z.of_nat (length x) - 48) 0) as [?|_]; [lia|].
    load8 (load_at mem 8 a 0 x 0 Hx ltac:(lia) ltac:(lia)).
    load8 (load_at mem 8 a 32 x 8 Hx ltac:(lia) ltac:(lia)).
    load8 (load_at mem 8 a 64 x 16 Hx ltac:(lia) ltac:(lia)).
    load8 (load_at mem 8 a 96 x 24 Hx ltac:(lia) ltac:(lia)).
    load8 (load_at mem 8 a 128 x 32 Hx ltac:(lia) ltac:(lia)).
    load8 (load_at mem 8 a 160 x 40 Hx ltac:(lia) ltac:(lia)).
    load8 (load_at mem 8 b 0 y 0 Hy ltac:(lia) ltac:(lia)).
    load8 (load_at mem 8 b 32 y 8 Hy ltac:(lia) ltac:(lia)).
    load8 (load_at mem 8 b 64 y 16 Hy ltac:(lia) ltac:(lia)).
    load8 (load_at mem 8 b 96 y 24 Hy ltac:(lia) ltac:(lia)).
    load8 (load_at mem 8 b 128 y 32 Hy ltac:(lia) ltac:(lia)).
    load8 (load_at mem 8 b 160 y 40 Hy ltac:(lia) ltac:(lia)).
    one. one. one. one.
    rewrite !wrap_id by lia.
    change (place dot_s Lblockloop) with 9.
    replace (Z.of_nat (length x) - 48)%Z with (Z.of_nat (length (drop 48 x))) by (rewrite drop_length; lia).
    apply Hk.
  Qed.
  Lemma blocks_run nb : forall a b x y cmp acc r6 r7 r8 r9 r10 r11 ret o,
    length acc = 6 -> nb = length x / 48 ->
    holds mem a x -> holds mem b y -> length x <= length y -> small a (length x) -> small b (length x) ->
    (forall cmp' r6 r7 r8 r9 r10 r11,
     ends (Mach 28 (a + 192 * Z.of_nat nb) (b + 192 * Z.of_nat nb) (Z.of_nat (length (drop (48 * nb) x))) cmp' (blocks nb x y acc ++ [r6; r7; r8; r9; r10; r11]) ret) o) ->
    ends (Mach 9 a b (Z.of_nat (length x)) cmp (acc ++ [r6; r7; r8; r9; r10; r11]) ret) o.
  Proof.
    induction nb as [|nb IH]; intros a b x y cmp acc r6 r7 r8 r9 r10 r11 ret o Hacc Hnb Hx Hy Hl Ha Hb Hk;
      destruct acc as [|a0 [|a1 [|a2 [|a3 [|a4 [|a5 [|]]]]]]]; try done; cbn [app].
    - assert (Hlt : length x < 48). { apply Nat.div_small_iff; lia. }
      one. one. one. destruct (Z.ltb_spec (Z.of_nat (length x) - 48) 0) as [_|?]; [|lia].
      change (place dot_s Ltail) with 28. specialize (Hk (Z.of_nat (length x) - 48)%Z r6 r7 r8 r9 r10 r11).
      rewrite drop_0 in Hk. cbn [blocks app] in Hk. rewrite !Z.add_0_r in Hk. exact Hk.
    - assert (Hge : 48 <= length x). { destruct (decide (48 <= length x)); [done|]. rewrite Nat.div_small in Hnb; lia. }
      apply (block_round a b x y); try done. intros cmp' r6' r7' r8' r9' r10' r11'.
      apply (IH _ _ (drop 48 x) (drop 48 y) cmp' [acc_step x y 0 a0; acc_step x y 1 a1; acc_step x y 2 a2; acc_step x y 3 a3; acc_step x y 4 a4; acc_step x y 5 a5]); try done.
      + rewrite drop_length. replace (length x) with (length x - 48 + 1 * 48) in Hnb by lia. rewrite Nat.div_add in Hnb by lia. lia.
      + apply (holds_drop mem a x 48 Hx).
      + apply (holds_drop mem b y 48 Hy).
      + rewrite !drop_length. lia.
      + destruct Ha. split; rewrite ?drop_length; lia.
      + destruct Hb. split; rewrite ?drop_length; lia.
      + intros c2 q6 q7 q8 q9 q10 q11. specialize (Hk c2 q6 q7 q8 q9 q10 q11). rewrite drop_drop.
        replace (48 + 48 * nb) with (48 * S nb) by lia.
        replace (a + 192 + 192 * Z.of_nat nb)%Z with (a + 192 * Z.of_nat (S nb))%Z by lia.
        replace (b + 192 + 192 * Z.of_nat nb)%Z with (b + 192 * Z.of_nat (S nb))%Z by lia. exact Hk.
  Qed.
  Lemma tail_run x : forall a b y cmp a0 a1 a2 a3 a4 a5 t r7 r8 r9 r10 r11 ret o,
    holds mem a x -> holds mem b y -> length x <= length y -> small a (length x) -> small b (length x) ->
    (forall a b cmp r7, ends (Mach 39 a b 0 cmp [a0; a1; a2; a3; a4; a5; tail_sum x y t :: replicate 7 fzero; r7; r8; r9; r10; r11] ret) o) ->
    ends (Mach 30 a b (Z.of_nat (length x)) cmp [a0; a1; a2; a3; a4; a5; t :: replicate 7 fzero; r7; r8; r9; r10; r11] ret) o.
  Proof.
    induction x as [|u x IH]; intros a b y cmp a0 a1 a2 a3 a4 a5 t r7 r8 r9 r10 r11 ret o Hx Hy Hl [Ha1 Ha2] [Hb1 Hb2] Hk.
    - one. one. one. change (place dot_s Lreduce) with 39. cbn [length Z.of_nat]. cbn [Z.sub Z.add Z.opp Z.eqb]. apply Hk.
    - destruct y as [|v y]; [cbn in Hl; lia|]. one. one. one.
      cbn [length] in *. destruct (Z.eqb_spec (Z.of_nat (S (length x)) - 0) 0) as [?|_]; [lia|].
      load8 (load_holds mem 1 a (u :: x) Hx ltac:(cbn; lia)).
      load8 (load_holds mem 1 b (v :: y) Hy ltac:(cbn; lia)).
      one. one. one. one. change (place dot_s Ltailloop) with 30. rewrite !wrap_id by lia.
      replace (Z.of_nat (S (length x)) - 1)%Z with (Z.of_nat (length x)) by lia.
      apply (IH (a + 4)%Z (b + 4)%Z y).
      + apply (holds_drop mem a (u :: x) 1 Hx).
      + apply (holds_drop mem b (v :: y) 1 Hy).
      + lia.
      + split; lia.
      + split; lia.
      + exact Hk.
  Qed.
  Lemma reduce_run a b cmp acc t r7 r8 r9 r10 r11 ret : length acc = 6 -> Forall (fun v => length v = 8) acc ->
    ends (Mach 39 a b 0 cmp (acc ++ [t :: replicate 7 fzero; r7; r8; r9; r10; r11]) ret) (Returned (reduce acc t)).
  Proof.
    intros Hacc HF. destruct acc as [|a0 [|a1 [|a2 [|a3 [|a4 [|a5 [|]]]]]]]; try done. cbn [app].
    repeat match goal with H : Forall _ (_ :: _) |- _ => apply Forall_cons_1 in H as [? H] end.
    repeat match goal with H : length ?v = 8 |- _ =>
      let H' := fresh in assert (H' := H); clear H;
      destruct v as [|? [|? [|? [|? [|? [|? [|? [|? [|]]]]]]]]]; try (exfalso; cbn in H'; lia); clear H' end.
    do 12 one. apply EndRet. reflexivity.
  Qed.
End run.

(** The program returns, reads nothing but its arguments, and computes
    [asm_dot]. *)
Lemma dot_s_run xb yb mem x y m : length x <= length y -> small xb (length x) -> small yb (length x) ->
  holds mem xb x -> holds mem yb y -> at_call m ->
  ends xb yb (Z.of_nat (length x)) mem m (Returned (asm_dot x y)).
Proof.
  intros Hl Hsx Hsy Hx Hy (Hpc & Hr & _). destruct m as [pc ax cx dx cmp yr ret]. cbn in Hpc, Hr. subst pc.
  destruct yr as [|r0 [|r1 [|r2 [|r3 [|r4 [|r5 [|r6 [|r7 [|r8 [|r9 [|r10 [|r11 [|]]]]]]]]]]]]]; try done.
  one. one. one. one. one. one. one. one. one.
  destruct Hsx as [Hx1 Hx2], Hsy as [Hy1 Hy2]. rewrite !wrap_id by lia.
  apply (blocks_run xb yb (Z.of_nat (length x)) mem (length x / 48) xb yb x y cmp (replicate 6 yzero)); try done.
  intros cmp' q6 q7 q8 q9 q10 q11.
  destruct (blocks_length (length x / 48)%nat x y (replicate 6 yzero) eq_refl Hl eq_refl ltac:(by repeat constructor)) as [Hb1 Hb2].
  unfold asm_dot. set (nb := (length x / 48)%nat) in *. set (acc := blocks nb x y (replicate 6 yzero)) in *. clearbody acc.
  assert (Hnb : 48 * nb <= length x) by (subst nb; apply Nat.mul_div_le; lia). clearbody nb.
  destruct acc as [|a0 [|a1 [|a2 [|a3 [|a4 [|a5 [|]]]]]]]; try done. cbn [app].
  one. one. apply (tail_run xb yb (Z.of_nat (length x)) mem (drop (48 * nb) x) (xb + 192 * Z.of_nat nb) (yb + 192 * Z.of_nat nb) (drop (48 * nb) y)).
  - replace (192 * Z.of_nat nb)%Z with (4 * Z.of_nat (48 * nb))%Z by lia. by apply holds_drop.
  - replace (192 * Z.of_nat nb)%Z with (4 * Z.of_nat (48 * nb))%Z by lia. by apply holds_drop.
  - rewrite !drop_length. lia.
  - split; rewrite ?drop_length; lia.
  - split; rewrite ?drop_length; lia.
  - intros a b c q. by apply (reduce_run xb yb (Z.of_nat (length x)) mem a b c [a0; a1; a2; a3; a4; a5]).
Qed.
