(** A rely/guarantee logic for programs of atomic steps.  [wp p Q x s]: started
    in a state reachable from [s] by steps of the other threads ([E]), every
    step of [p] obeys the guarantee [GU] and [p] ends in [Q]; where a step is
    blocked, [B] holds.  [x] is the thread's own bookkeeping (ghost state). *)
From Verif Require Import GoBase ProgModel ProofBase.
From stdpp Require Import relations.
Open Scope nat_scope.

(** Induction over programs. *)
Fixpoint prog_ind' {S A} (P : prog S A -> Prop) (HD : forall r, P (Done r))
    (HS : forall f, (forall s s' p', f s = Some (s', p') -> P p') -> P (Step f)) (p : prog S A) : P p :=
  match p with
  | Done r => HD r
  | Step f => HS f (fun s s' p' (H : f s = Some (s', p')) =>
      match f s as o return o = Some (s', p') -> P p' with
      | Some (s0, p0) => fun E => eq_ind p0 P (prog_ind' P HD HS p0) p' (proj2 (Some_pair_inj _ _ _ _ E))
      | None => fun E => match eq_ind None (fun o => match o with None => True | Some _ => False end) I _ E with end
      end H)
  end.

Section wp.
  Context {S L : Type}.
  Context (E : L -> S -> S -> Prop) (GU : L -> S -> L -> S -> Prop) (B : L -> S -> Prop).

  Fixpoint wp {A} (p : prog S A) (Q : L -> out A -> S -> Prop) (x : L) (s : S) : Prop :=
    match p with
    | Done r => forall s1, E x s s1 -> Q x r s1
    | Step f => forall s1, E x s s1 ->
        match f s1 with
        | None => B x s1
        | Some (s2, p') => exists x', GU x s1 x' s2 /\ wp p' Q x' s2
        end
    end.

  Context (E_refl : forall x s, E x s s).
  Context (E_trans : forall x s1 s2 s3, E x s1 s2 -> E x s2 s3 -> E x s1 s3).

  Lemma wp_env {A} (p : prog S A) Q x s s1 : E x s s1 -> wp p Q x s -> wp p Q x s1.
  Proof using E_trans. intros He. destruct p; cbn [wp]; intros Hw s2 He2; apply Hw; by eapply E_trans. Qed.

  Lemma wp_mono {A} (p : prog S A) (Q Q' : L -> out A -> S -> Prop) x s :
    (forall x r s, Q x r s -> Q' x r s) -> wp p Q x s -> wp p Q' x s.
  Proof.
    intros HQ. revert x s. induction p as [r|f IH] using prog_ind'; intros x s; cbn [wp].
    - auto.
    - intros Hw s1 He. specialize (Hw s1 He). destruct (f s1) as [[s2 p']|] eqn:Ef; [|done].
      destruct Hw as (x' & Hg & Hw). exists x'. split; [done|]. by eapply IH.
  Qed.

  Lemma wp_bind {A C} (p : prog S A) (k : A -> prog S C) Q x s :
    wp p (fun x r s => match r with
                       | Val a => wp (k a) Q x s
                       | Err e => Q x (Err e) s
                       | Pan z => Q x (Pan z) s
                       end) x s ->
    wp (p ≫= k) Q x s.
  Proof using E_refl.
    change (p ≫= k) with (pbind p k).
    revert x s. induction p as [r|f IH] using prog_ind'; intros x s; cbn [wp pbind].
    - intros Hw. destruct r as [a|e|z]; [by apply Hw, E_refl|..]; cbn [wp]; intros s1 He; by apply Hw.
    - intros Hw s1 He. specialize (Hw s1 He). destruct (f s1) as [[s2 p']|] eqn:Ef; [|done].
      destruct Hw as (x' & Hg & Hw). exists x'. split; [done|]. by eapply IH.
  Qed.

  Lemma wp_done {A} (r : out A) (Q : L -> out A -> S -> Prop) x s : (forall s1, E x s s1 -> Q x r s1) -> wp (Done r) Q x s.
  Proof. done. Qed.
  Lemma wp_ret {A} (a : A) (Q : L -> out A -> S -> Prop) x s : (forall s1, E x s s1 -> Q x (Val a) s1) -> wp (mret a) Q x s.
  Proof. done. Qed.
  Lemma wp_act {A} (f : S -> S * out A) (Q : L -> out A -> S -> Prop) x s :
    (forall s1, E x s s1 -> exists x', GU x s1 x' (fst (f s1)) /\ forall s3, E x' (fst (f s1)) s3 -> Q x' (snd (f s1)) s3) ->
    wp (act f) Q x s.
  Proof.
    intros Hw s1 He. specialize (Hw s1 He). destruct (f s1) as [s2 r]. cbn [fst snd] in Hw.
    destruct Hw as (x' & Hg & Hq). exists x'. split; [done|]. done.
  Qed.
  Lemma wp_act_lock {A} (f : S -> option (S * out A)) (Q : L -> out A -> S -> Prop) x s :
    (forall s1, E x s s1 ->
      match f s1 with
      | None => B x s1
      | Some (s2, r) => exists x', GU x s1 x' s2 /\ forall s3, E x' s2 s3 -> Q x' r s3
      end) ->
    wp (act_lock f) Q x s.
  Proof.
    intros Hw s1 He. specialize (Hw s1 He). destruct (f s1) as [[s2 r]|]; [|done].
    destruct Hw as (x' & Hg & Hq). by exists x'.
  Qed.

  (** Running alone. *)
  Lemma wp_exec {A} (p : prog S A) Q x s :
    wp p Q x s ->
    match exec p s with
    | Some (s', r) => exists x', Q x' r s'
    | None => exists x' s', B x' s'
    end.
  Proof using E_refl.
    revert x s. induction p as [r|f IH] using prog_ind'; intros x s; cbn [wp exec].
    - intros Hw. exists x. by apply Hw, E_refl.
    - intros Hw. specialize (Hw s (E_refl x s)). destruct (f s) as [[s2 p']|] eqn:Ef.
      + destruct Hw as (x' & Hg & Hw). by eapply IH.
      + by exists x, s.
  Qed.
  (** Running alone, with a property of all guarantee steps collected. *)
  Lemma wp_exec_rel {A} (T : S -> S -> Prop) (p : prog S A) Q x s :
    (forall s, T s s) -> (forall a b c, T a b -> T b c -> T a c) ->
    (forall x s x' s', GU x s x' s' -> T s s') ->
    wp p Q x s ->
    match exec p s with
    | Some (s', r) => T s s' /\ exists x', Q x' r s'
    | None => exists x' s', T s s' /\ B x' s'
    end.
  Proof using E_refl.
    intros Tr Tt Tg. revert x s. induction p as [r0|f IH] using prog_ind'; intros x s; cbn [wp exec].
    - intros Hw. split; [done|]. exists x. by apply Hw, E_refl.
    - intros Hw. specialize (Hw s (E_refl x s)). destruct (f s) as [[s2 p']|] eqn:Ef; [|by exists x, s].
      destruct Hw as (x' & Hg & Hw). specialize (IH _ _ _ Ef _ _ Hw). apply Tg in Hg.
      destruct (exec p' s2) as [[s' r]|].
      + destruct IH as [HT HQ]. eauto.
      + destruct IH as (y & s' & HT & HQ). eauto 6.
  Qed.

  (** Any number of threads under any schedule. *)
  Context (W : list L -> S -> Prop).
  Context (W_step : forall xs s i x x' s',
    W xs s -> xs !! i = Some x -> GU x s x' s' ->
    W (<[i := x']> xs) s' /\ forall j y, j <> i -> xs !! j = Some y -> E y s s').

  Definition all_wp {A} (Q : nat -> L -> out A -> S -> Prop) (xs : list L) (ts : list (prog S A)) (s : S) : Prop :=
    length xs = length ts /\ W xs s /\
    forall i x p, xs !! i = Some x -> ts !! i = Some p -> wp p (Q i) x s.

  Lemma all_wp_mstep {A} Q xs (m m' : machine S A) :
    mstep m m' -> all_wp Q xs (snd m) (fst m) ->
    exists xs', all_wp Q xs' (snd m') (fst m').
  Proof using E_trans E_refl W_step.
    intros [s ts i f s' p' Hi Hf] (Hl & HW & Hall). cbn [fst snd] in *.
    destruct (lookup_lt_is_Some_2 xs i) as [x Hx]; [rewrite Hl; by eapply lookup_lt_Some|].
    pose proof (Hall i x _ Hx Hi) as Hw. cbn [wp] in Hw. specialize (Hw s (E_refl x s)). rewrite Hf in Hw.
    destruct Hw as (x' & Hg & Hw). destruct (W_step _ _ _ _ _ _ HW Hx Hg) as [HW' HE].
    exists (<[i := x']> xs). unfold all_wp. cbn [fst snd]. split_and!; [by rewrite !insert_length|done|].
    intros j y p Hj Hp. destruct (decide (j = i)) as [->|Hne].
    - rewrite list_lookup_insert in Hj by (by eapply lookup_lt_Some).
      rewrite list_lookup_insert in Hp by (by eapply lookup_lt_Some). by simplify_eq.
    - rewrite list_lookup_insert_ne in Hj by done. rewrite list_lookup_insert_ne in Hp by done. eapply wp_env; [by eapply HE|]. by eapply Hall.
  Qed.
  Lemma all_wp_rtc {A} Q xs (m m' : machine S A) :
    rtc mstep m m' -> all_wp Q xs (snd m) (fst m) ->
    exists xs', all_wp Q xs' (snd m') (fst m').
  Proof using E_trans E_refl W_step.
    intros Hr. revert xs. induction Hr as [m|m m1 m' Hs Hr IH]; intros xs Ha; [by exists xs|].
    destruct (all_wp_mstep _ _ _ _ Hs Ha) as [xs1 Ha1]. by eapply IH.
  Qed.
  Lemma all_wp_done {A} Q xs s (rs : list (out A)) :
    all_wp Q xs (Done <$> rs) s ->
    length xs = length rs /\ W xs s /\ forall i x r, xs !! i = Some x -> rs !! i = Some r -> Q i x r s.
  Proof using E_refl.
    intros (Hl & HW & Hall). rewrite fmap_length in Hl. split_and!; [done..|].
    intros i x r Hx Hr. apply (Hall i x (Done r) Hx); [by rewrite list_lookup_fmap, Hr|apply E_refl].
  Qed.
End wp.

(** Every schedule ends: a program is a well-founded tree. *)
Lemma prog_steps_wf {S A} : well_founded (fun p' p : prog S A => exists f s s', p = Step f /\ f s = Some (s', p')).
Proof.
  intros p. induction p as [r|f IH] using prog_ind'; constructor; intros p' (g & s & s' & Eq & Eg); [done|].
  injection Eq as <-. by eapply IH.
Qed.

(** Sequencing of [exec]. *)
Lemma exec_bind {S A C} (p : prog S A) (k : A -> prog S C) s :
  exec (p ≫= k) s =
    match exec p s with
    | Some (s', Val a) => exec (k a) s'
    | Some (s', Err e) => Some (s', Err e)
    | Some (s', Pan z) => Some (s', Pan z)
    | None => None
    end.
Proof.
  change (p ≫= k) with (pbind p k).
  revert s. induction p as [r|f IH] using prog_ind'; intros s; cbn [pbind exec].
  - by destruct r.
  - destruct (f s) as [[s2 p']|] eqn:Ef; [|done]. by eapply IH.
Qed.
Lemma exec_bind_val {S A C} (p : prog S A) (k : A -> prog S C) s s' b :
  exec (p ≫= k) s = Some (s', Val b) ->
  exists s1 a, exec p s = Some (s1, Val a) /\ exec (k a) s1 = Some (s', Val b).
Proof.
  rewrite exec_bind. destruct (exec p s) as [[s1 [a|e|z]]|]; intros Hx; try done. by exists s1, a.
Qed.
Lemma exec_act {S A} (f : S -> S * out A) s : exec (act f) s = Some (f s).
Proof. cbn [act exec]. by destruct (f s). Qed.
Lemma exec_act_lock {S A} (f : S -> option (S * out A)) s : exec (act_lock f) s = f s.
Proof. cbn [act_lock exec]. by destruct (f s) as [[]|]. Qed.
Lemma exec_lift {S A} (r : out A) (s : S) : exec (lift r) s = Some (s, r).
Proof. done. Qed.

Lemma rtc_mstep_length {S A} (m m' : machine S A) : rtc mstep m m' -> length (snd m') = length (snd m).
Proof.
  induction 1 as [m|m m1 m' Hs _ IH]; [done|]. rewrite IH. destruct Hs. cbn. by rewrite insert_length.
Qed.

(** Lists of lists. *)
Lemma NoDup_mjoin_at {A} (ls : list (list A)) i l : NoDup (mjoin ls) -> ls !! i = Some l -> NoDup l.
Proof.
  revert i. induction ls as [|x ls IH]; intros i Hnd Hi; [done|]. apply NoDup_app in Hnd as (H1 & _ & H2).
  destruct i as [|i]; cbn in Hi; [by injection Hi as ->|by eapply IH].
Qed.
Lemma NoDup_mjoin_disj {A} (ls : list (list A)) i j l1 l2 x :
  NoDup (mjoin ls) -> i <> j -> ls !! i = Some l1 -> ls !! j = Some l2 -> x ∈ l1 -> x ∈ l2 -> False.
Proof.
  revert i j. induction ls as [|y ls IH]; intros i j Hnd Hne Hi Hj H1 H2; [done|].
  apply NoDup_app in Hnd as (_ & Hdis & Hnd).
  destruct i as [|i], j as [|j]; cbn in Hi, Hj; [done|..].
  - injection Hi as ->. apply (Hdis x H1). apply elem_of_list_join. exists l2. split; [done|]. by eapply elem_of_list_lookup_2.
  - injection Hj as ->. apply (Hdis x H2). apply elem_of_list_join. exists l1. split; [done|]. by eapply elem_of_list_lookup_2.
  - eapply (IH i j); try done. congruence.
Qed.
Lemma fmap_mjoin {A B} (f : A -> B) (ls : list (list A)) : f <$> mjoin ls = mjoin (fmap f <$> ls).
Proof. induction ls as [|x ls IH]; [done|]. cbn. rewrite fmap_app. by f_equal. Qed.
Lemma mjoin_app {A} (a b : list (list A)) : mjoin (a ++ b) = mjoin a ++ mjoin b.
Proof. induction a as [|x a IH]; [done|]. change (x ++ mjoin (a ++ b) = (x ++ mjoin a) ++ mjoin b). by rewrite IH, <- app_assoc. Qed.
