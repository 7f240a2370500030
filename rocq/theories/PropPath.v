(** C99: the files a database touches. *)
From stdpp Require Import gmap strings list.
From Coq Require Import Ascii.
From Verif Require Import GoBase PathModel.
Open Scope nat_scope.

(** An ordinary file name that is not one of sqlite's. *)
Definition ordinary (n : string) : Prop :=
  ~ In "/"%char (list_ascii_of_string n) /\ n <> ""%string /\ n <> "."%string /\ n <> ".."%string /\ n ∉ meta_names.
Definition ev_name (e : fev) : option string := match e with FCreate n | FDelete n | FUse n => Some n | FOpen => None end.
Definition ordinary_ev (e : fev) : Prop := forall n, ev_name e = Some n -> ordinary n.
(** The collections an event is about; Open is about all there are. *)
Definition concerns (s : fsdb) (e : fev) (n : string) : Prop := match ev_name e with Some m => n = m | None => n ∈ f_rows s end.
(** A database just opened in the directory [data]. *)
Definition fresh_at (data : path) (s : fsdb) : Prop := f_tree s !! data = Some NDir /\ f_rows s = [] /\ f_open s = ∅.

Section proofs.
  Context (data : path).

  Lemma components_plain n : ~ In "/"%char (list_ascii_of_string n) -> components n = [n].
  Proof using.
    clear. induction n as [|c n IH]; [done|]. intros H. cbn [components]. rewrite decide_False.
    - rewrite IH; [done|]. intros Hx. apply H. cbn. by right.
    - intros ->. apply H. by left.
  Qed.
  Lemma ordinary_stays n : ordinary n -> stays n = false /\ bool_decide (n = ".."%string) = false.
  Proof using. clear. intros (_ & H1 & H2 & H3 & _). unfold stays. by rewrite !bool_decide_eq_false_2. Qed.

  Lemma walk_ordinary t n p : ordinary n -> walk t data (components n) = Some p -> p = data ++ [n].
  Proof using.
    intros Hn. rewrite components_plain by apply Hn. cbn [walk]. destruct (ordinary_stays n Hn) as [-> ->].
    destruct (t !! data) as [[|?]|]; try done. match goal with |- context [match ?x with Some _ => _ | None => _ end] => destruct x as [[|?]|] end; try done. by intros [= <-].
  Qed.
  Lemma make_ordinary t n t1 p : ordinary n -> t !! data = Some NDir -> walk_make t data (components n) = Some (t1, p) ->
    p = data ++ [n] /\ forall q, q <> p -> t1 !! q = t !! q.
  Proof using.
    intros Hn Hd. rewrite components_plain by apply Hn. cbn [walk_make]. destruct (ordinary_stays n Hn) as [-> ->]. rewrite Hd.
    match goal with |- context [match ?x with Some _ => _ | None => _ end] => destruct x as [[|?]|] end; try done; intros [= <- <-]; (split; [done|]); intros q Hq; [done|]. by rewrite lookup_insert_ne by done.
  Qed.
  Lemma mkdir_ordinary t n t1 : ordinary n -> mkdir_at t data n = Some t1 ->
    t !! (data ++ [n]) = None /\ t1 = <[data ++ [n] := NDir]> t.
  Proof using.
    intros Hn. unfold mkdir_at. rewrite components_plain by apply Hn. rewrite filter_cons_True by apply Hn. rewrite filter_nil. cbn [last removelast].
    destruct (ordinary_stays n Hn) as [-> ->]. cbn [orb walk]. destruct (t !! data) as [[|?]|]; try done. match goal with |- context [match ?x with Some _ => _ | None => _ end] => destruct x as [?|] eqn:E0 end; try done. by intros [= <-].
  Qed.
  Lemma remove_ordinary t n t1 : ordinary n -> remove_at t data n = Some t1 -> forall q, ~ data ++ [n] `prefix_of` q -> t1 !! q = t !! q.
  Proof using.
    intros Hn. unfold remove_at. destruct (bool_decide _); [done|]. destruct (walk t data (components n)) as [p|] eqn:E; [|by intros [= <-]].
    apply walk_ordinary in E as ->; [|done]. intros [= <-] q Hq. destruct (t !! q) as [x|] eqn:Eq.
    - by apply map_filter_lookup_Some_2.
    - apply map_filter_lookup_None. by left.
  Qed.

  Definition inv (s : fsdb) : Prop := f_tree s !! data = Some NDir /\ Forall ordinary (f_rows s) /\ (forall n, n ∈ f_open s -> ordinary n).
  Lemma not_meta_data : ~ is_meta data data.
  Proof using. clear. intros (n & _ & E). apply (f_equal length) in E. rewrite app_length in E. cbn in E. lia. Qed.
  Lemma not_below n : ~ data ++ [n] `prefix_of` data.
  Proof using. clear. intros [k E]. apply (f_equal length) in E. rewrite !app_length in E. cbn in E. lia. Qed.
  Lemma below_inj n m q : data ++ [n] `prefix_of` q -> data ++ [m] `prefix_of` q -> n = m.
  Proof using.
    clear. intros [k ->] [k2 E]. rewrite <- !app_assoc in E. apply app_inv_head in E. by injection E as ->.
  Qed.
  Lemma opened_ordinary t n t1 : ordinary n -> t !! data = Some NDir -> opened data t n t1 ->
    forall q, ~ data ++ [n] `prefix_of` q -> t1 !! q = t !! q.
  Proof using.
    intros Hn Hd (t2 & p & E & _ & Hw) q Hq. destruct (make_ordinary _ _ _ _ Hn Hd E) as [-> Hm]. rewrite Hw by done. apply Hm. by intros ->; apply Hq.
  Qed.
  Lemma opens_ordinary t ns t1 : Forall ordinary ns -> t !! data = Some NDir -> opens data t ns t1 ->
    forall q, (forall n, n ∈ ns -> ~ data ++ [n] `prefix_of` q) -> t1 !! q = t !! q.
  Proof using.
    intros Hn Hd H. induction H as [|ns n t1 t2 H IH Ho]; intros q Hq; [done|]. apply Forall_app in Hn as [Hn1 Hn2]. rewrite Forall_singleton in Hn2.
    specialize (IH Hn1). rewrite (opened_ordinary t1 _ _ Hn2); [apply IH| |done|].
    - intros m Hm. apply Hq. apply elem_of_app. by left.
    - rewrite IH; [done|]. intros m _. apply not_below.
    - apply Hq. apply elem_of_app. right. by apply elem_of_list_singleton.
  Qed.

  Lemma step_inv s e s' : inv s -> ordinary_ev e -> fstep data s e s' ->
    inv s' /\ forall q, f_tree s' !! q = f_tree s !! q \/ is_meta data q \/ exists n, concerns s e n /\ data ++ [n] `prefix_of` q.
  Proof using.
    intros (Hd & Hr & Ho) He Hs.
    assert (Hch : forall q, f_tree s' !! q = f_tree s !! q \/ is_meta data q \/ exists n, concerns s e n /\ data ++ [n] `prefix_of` q).
    { intros q. destruct (decide (q ∈ (fun n => data ++ [n]) <$> meta_names)) as [Hm|Hm].
      { right; left. apply elem_of_list_fmap in Hm as (n & -> & Hn). by exists n. }
      assert (Hnm : ~ is_meta data q) by (intros (n & Hn & ->); apply Hm; by apply (elem_of_list_fmap_1 (fun n => data ++ [n]))).
      assert (Hmd : forall t1, meta_write data (f_tree s) t1 -> t1 !! data = Some NDir) by (intros t1 Hw; rewrite Hw; [done|apply not_meta_data]).
      inversion Hs as [n|n t1 Hn1 Hn2 Hn3 Hw Hk|n t1 t2 t3 Hn1 Hn2 Hn3 Hw Hk Hop|n t1 t2 t3 Hn1 Hn2 Hn3 Hw Hk Hop|n Hn|n t1 t2 Hn1 Hn2 Hw Hk|n t1 Hn1 Hn2 Hw Hk|n p t1 Hn Hk Hw|t1 t2 Hw Hop];
        subst; cbn [f_tree]; try (by left).
      - left. by apply Hw.
      - pose proof (He n eq_refl) as On. destruct (decide (data ++ [n] `prefix_of` q)) as [Hp|Hp]; [right; right; by exists n|left].
        destruct (mkdir_ordinary _ _ _ On Hk) as [_ ->].
        rewrite (opened_ordinary (<[data ++ [n]:=NDir]> t1) _ _ On); [|rewrite lookup_insert_ne; [by apply Hmd|]|done|done].
        + rewrite lookup_insert_ne; [by apply Hw|]. intros <-. by apply Hp.
        + intros E. apply (f_equal length) in E. rewrite app_length in E. cbn in E. lia.
      - pose proof (He n eq_refl) as On. destruct (decide (data ++ [n] `prefix_of` q)) as [Hp|Hp]; [right; right; by exists n|left].
        destruct (mkdir_ordinary _ _ _ On Hk) as [_ ->].
        assert (<[data ++ [n]:=NDir]> t1 !! q = f_tree s !! q) as E1 by (rewrite lookup_insert_ne; [by apply Hw|]; intros <-; by apply Hp).
        destruct Hop as [-> |Hop]; [done|].
        rewrite (opened_ordinary (<[data ++ [n]:=NDir]> t1) _ _ On); [done|rewrite lookup_insert_ne; [by apply Hmd|]|done|done].
        intros E. apply (f_equal length) in E. rewrite app_length in E. cbn in E. lia.
      - pose proof (He n eq_refl) as On. destruct (decide (data ++ [n] `prefix_of` q)) as [Hp|Hp]; [right; right; by exists n|left].
        rewrite (remove_ordinary _ _ _ On Hk) by done. by apply Hw.
      - left. by apply Hw.
      - pose proof (He n eq_refl) as On. apply walk_ordinary in Hk as ->; [|done].
        destruct (decide (data ++ [n] `prefix_of` q)) as [Hp|Hp]; [right; right; by exists n|left]. by apply Hw.
      - destruct (decide (Exists (fun n => data ++ [n] `prefix_of` q) (f_rows s))) as [Hx|Hx].
        { right; right. apply Exists_exists in Hx as (n & Hn & Hp). by exists n. }
        left. rewrite (opens_ordinary t1 _ _ Hr); [by apply Hw|by apply Hmd|done|].
        intros n Hn Hp. apply Hx. apply Exists_exists. by exists n. }
    split; [|done]. split.
    - destruct (Hch data) as [-> |[H|(n & _ & H)]]; [done|by apply not_meta_data in H|by apply not_below in H].
    - inversion Hs as [n|n t1 Hn1 Hn2 Hn3 Hw Hk|n t1 t2 t3 Hn1 Hn2 Hn3 Hw Hk Hop|n t1 t2 t3 Hn1 Hn2 Hn3 Hw Hk Hop|n Hn|n t1 t2 Hn1 Hn2 Hw Hk|n t1 Hn1 Hn2 Hw Hk|n p t1 Hn Hk Hw|t1 t2 Hw Hop];
        subst; cbn [f_rows f_open]; try done.
      + split; [|done]. apply Forall_app. split; [done|]. apply Forall_singleton. by apply He.
      + split; [apply Forall_app; split; [done|]; apply Forall_singleton; by apply He|]. intros m [->%elem_of_singleton|Hm]%elem_of_union; [by apply He|by apply Ho].
      + split; [|done]. apply Forall_app. split; [done|]. apply Forall_singleton. by apply He.
      + split; [|intros m [Hm _]%elem_of_difference; by apply Ho]. apply Forall_forall. intros m [_ Hm]%elem_of_list_filter. rewrite Forall_forall in Hr. by apply Hr.
      + split; [|done]. apply Forall_forall. intros m [_ Hm]%elem_of_list_filter. rewrite Forall_forall in Hr. by apply Hr.
      + split; [done|]. intros m Hm%elem_of_list_to_set. rewrite Forall_forall in Hr. by apply Hr.
  Qed.
  Lemma hist_inv s l s' : inv s -> Forall ordinary_ev l -> fhist data s l s' -> inv s'.
  Proof using.
    intros Hi Hl H. induction H as [|l e s1 s2 H IH Hs]; [done|]. apply Forall_app in Hl as [Hl He]. rewrite Forall_singleton in He.
    by apply (step_inv s1 e s2); [apply IH|..].
  Qed.
  Lemma fresh_inv s : fresh_at data s -> inv s.
  Proof using. clear. intros (H1 & H2 & H3). split; [done|]. rewrite H2, H3. split; [constructor|]. intros n Hn. by apply elem_of_empty in Hn. Qed.
End proofs.

(** ** C99 A database keeps to its data directory and each collection to its own *)
(** An event changes files below data/name of the collections it is about, and
    sqlite's; so nothing outside the data directory, and nothing of another
    collection. *)
Theorem C99_files_partial : forall data s0 l s e s',
  fresh_at data s0 -> fhist data s0 l s -> fstep data s e s' -> Forall ordinary_ev l -> ordinary_ev e ->
  (forall q, f_tree s' !! q <> f_tree s !! q ->
     data `prefix_of` q /\ (is_meta data q \/ exists n, concerns s e n /\ data ++ [n] `prefix_of` q)) /\
  (forall m q, ~ concerns s e m -> ordinary m -> data ++ [m] `prefix_of` q -> f_tree s' !! q = f_tree s !! q).
Proof.
  intros data s0 l s e s' Hf Hh Hs Hl He. pose proof (hist_inv data s0 l s (fresh_inv data s0 Hf) Hl Hh) as Hi.
  destruct (step_inv data s e s' Hi He Hs) as [_ Hc]. split.
  - intros q Hq. destruct (Hc q) as [E|[H|(n & Hn & Hp)]]; [done| |].
    + split; [|by left]. destruct H as (n & _ & ->). by exists [n].
    + split; [|right; by exists n]. destruct Hp as [k ->]. exists (n :: k). by rewrite <- app_assoc.
  - intros m q Hm Om Hp. destruct (Hc q) as [E|[(n & Hn & ->)|(n & Hn & Hp2)]]; [done| |].
    + destruct Hp as [k E]. rewrite <- app_assoc in E. apply app_inv_head in E. injection E as -> ->. exfalso. by apply Om.
    + assert (n = m) as -> by (by apply (below_inj data n m q)). done.
Qed.
Print Assumptions C99_files_partial.

(** Over any number of events: what a collection has written stays until an
    event is about that collection. *)
Theorem C99_files_kept_partial : forall data s0 l s1 l2 s2 m,
  fresh_at data s0 -> fhist data s0 l s1 -> fhist data s1 l2 s2 -> Forall ordinary_ev (l ++ l2) -> ordinary m ->
  (forall la e lb sa, l2 = la ++ e :: lb -> fhist data s1 la sa -> ~ concerns sa e m) ->
  forall q, data ++ [m] `prefix_of` q -> f_tree s2 !! q = f_tree s1 !! q.
Proof.
  intros data s0 l s1 l2 s2 m Hf Hh Hh2 Hl Om Hc q Hp. apply Forall_app in Hl as [Hl Hl2].
  pose proof (hist_inv data s0 l s1 (fresh_inv data s0 Hf) Hl Hh) as Hi.
  induction Hh2 as [|l2 e sa sb Hh2 IH Hs]; [done|]. apply Forall_app in Hl2 as [Hl2 He]. rewrite Forall_singleton in He.
  rewrite <- IH; [|done|].
  - pose proof (hist_inv data s1 l2 sa Hi Hl2 Hh2) as Hia. destruct (step_inv data sa e sb Hia He Hs) as [_ Hx].
    destruct (Hx q) as [E|[(n & Hn & ->)|(n & Hn & Hp2)]]; [done| |].
    + destruct Hp as [k E]. rewrite <- app_assoc in E. apply app_inv_head in E. injection E as -> ->. exfalso. by apply Om.
    + assert (n = m) as -> by (by apply (below_inj data n m q)). exfalso. by apply (Hc l2 e [] sa).
  - intros la e0 lb sc -> Hsc. apply (Hc la e0 (lb ++ [e]) sc); [|done]. by rewrite <- app_assoc.
Qed.
Print Assumptions C99_files_kept_partial.

(** ** The full statement fails *)
Definition ex_data : path := ["srv"; "data"]%string.
Definition ex_tree : tree := {[ [] := NDir; ["srv"%string] := NDir; ex_data := NDir; ["srv"; "notes"]%string := NFile [1%N] ]}.
Definition ex_s0 : fsdb := FsDb ex_tree [] ∅.
Lemma ex_fresh : fresh_at ex_data ex_s0.
Proof. split; [by vm_compute|done]. Qed.
Lemma meta_write_refl data t : meta_write data t t.
Proof. by intros q _. Qed.
Lemma writes_refl p t : writes_in p t t.
Proof. split; [done|]. by intros q _. Qed.
Lemma fhist_cons data s e s1 l s2 : fstep data s e s1 -> fhist data s1 l s2 -> fhist data s (e :: l) s2.
Proof.
  intros Hs Hh. induction Hh as [|l e2 sa sb Hh IH Hs2]; [change [e] with ([] ++ [e]); econstructor; [constructor|done]|].
  rewrite app_comm_cons. by econstructor.
Qed.
Lemma fdelete_ok data s n t1 s' :
  n ∈ f_open s -> n ∈ f_rows s -> meta_write data (f_tree s) t1 -> remove_at t1 data n = Some (f_tree s') ->
  f_rows s' = base.filter (fun m => m <> n) (f_rows s) -> f_open s' = f_open s ∖ {[n]} -> fstep data s (FDelete n) s'.
Proof. destruct s'. cbn. intros ? ? ? ? -> ->. by econstructor. Qed.
(** Creating ".." is refused, but after a restart the collection is there, its
    files in the parent directory; deleting it deletes the parent directory. *)
Definition up_tree : tree := base.filter (fun x => ~ ["srv"%string] `prefix_of` x.1) ex_tree.
Theorem C99_outside_refuted : exists data s0 l s q, fresh_at data s0 /\ fhist data s0 l s /\
  l = [FCreate ".."; FOpen; FDelete ".."]%string /\
  ~ data `prefix_of` q /\ f_tree s0 !! q = Some (NFile [1%N]) /\ f_tree s !! q = None.
Proof.
  exists ex_data, ex_s0, [FCreate ".."; FOpen; FDelete ".."]%string, (FsDb up_tree [] ∅), ["srv"; "notes"]%string.
  split; [apply ex_fresh|]. split; [|split; [done|split; [|split; [by vm_compute|by vm_compute]]]].
  2:{ intros [k E]. by injection E. }
  eapply fhist_cons; [apply (FCreateNoDir ex_data ex_s0 ".." ex_tree); [done|set_solver|set_solver|apply meta_write_refl|by vm_compute]|].
  eapply fhist_cons; [apply (FOpenAll ex_data _ ex_tree ex_tree); [apply meta_write_refl|]|].
  { cbn [f_rows app]. change [".."%string] with ([] ++ [".."%string]). econstructor; [constructor|]. exists ex_tree, ["srv"%string]. split; [by vm_compute|apply writes_refl]. }
  cbn [f_rows ex_s0 app].
  eapply fhist_cons; [|].
  { apply (FDeleteOk ex_data _ ".." ex_tree up_tree); [set_solver|set_solver|apply meta_write_refl|]. unfold remove_at.
    rewrite bool_decide_eq_false_2 by (vm_compute; discriminate). assert (walk ex_tree ex_data (components "..") = Some ["srv"%string]) as -> by (by vm_compute). done. }
  cbn [f_rows f_open]. rewrite filter_cons_False by (intros H; by apply H). rewrite filter_nil.
  match goal with |- fhist _ (FsDb _ _ ?x) _ _ => assert (x = ∅) as -> by set_solver end. constructor.
Qed.
Print Assumptions C99_outside_refuted.
(** "a/b" is a collection inside the directory of "a"; deleting "a" takes it along. *)
Definition in_tree1 : tree := <[ex_data ++ ["a"%string] := NDir]> ex_tree.
Definition in_tree2 : tree := <[ex_data ++ ["a"; "b"]%string := NDir]> in_tree1.
Definition in_tree3 : tree := <[ex_data ++ ["a"; "b"; "indexcounter"]%string := NFile [7%N]]> in_tree2.
Definition in_tree4 : tree := base.filter (fun x => ~ (ex_data ++ ["a"%string]) `prefix_of` x.1) in_tree3.
Theorem C99_nested_refuted : exists data s0 l s s' q, fresh_at data s0 /\ fhist data s0 l s /\
  l = [FCreate "a"; FCreate "a/b"; FUse "a/b"]%string /\ fstep data s (FDelete "a") s' /\
  "a/b"%string ∈ f_open s' /\ f_tree s !! q = Some (NFile [7%N]) /\ f_tree s' !! q = None /\
  walk (f_tree s) data (components "a/b") = Some (data ++ ["a"; "b"]%string) /\ data ++ ["a"; "b"]%string `prefix_of` q.
Proof.
  exists ex_data, ex_s0, [FCreate "a"; FCreate "a/b"; FUse "a/b"]%string, (FsDb in_tree3 ["a"; "a/b"]%string ({["a/b"%string]} ∪ ({["a"%string]} ∪ ∅))),
    (FsDb in_tree4 ["a/b"%string] (({["a/b"%string]} ∪ ({["a"%string]} ∪ ∅)) ∖ {["a"%string]})), (ex_data ++ ["a"; "b"; "indexcounter"]%string).
  split; [apply ex_fresh|]. split; [|split; [done|split; [|split; [set_solver|split; [by vm_compute|split; [by vm_compute|split; [by vm_compute|by exists ["indexcounter"%string]]]]]]]].
  - eapply fhist_cons; [apply (FCreateOk ex_data ex_s0 "a" ex_tree in_tree1 in_tree1); [done|set_solver|set_solver|apply meta_write_refl|by vm_compute|]|].
    { exists in_tree1, (ex_data ++ ["a"%string]). split; [by vm_compute|apply writes_refl]. }
    cbn [f_rows f_open ex_s0 app].
    eapply fhist_cons; [apply (FCreateOk ex_data _ "a/b" in_tree1 in_tree2 in_tree2); [done|set_solver|set_solver|apply meta_write_refl|by vm_compute|]|].
    { exists in_tree2, (ex_data ++ ["a"; "b"]%string). split; [by vm_compute|apply writes_refl]. }
    cbn [f_rows f_open ex_s0 app].
    eapply fhist_cons; [apply (FUseIt ex_data _ "a/b" (ex_data ++ ["a"; "b"]%string) in_tree3); [set_solver|by vm_compute|]|constructor].
    split; [by vm_compute|]. intros q Hq. cbn [f_tree]. unfold in_tree3. apply lookup_insert_ne. intros <-. apply Hq. by exists ["indexcounter"%string].
  - apply (fdelete_ok ex_data _ "a" in_tree3); [set_solver|set_solver|apply meta_write_refl| |by vm_compute|done]. unfold remove_at.
    rewrite bool_decide_eq_false_2 by (vm_compute; discriminate). assert (walk in_tree3 ex_data (components "a") = Some (ex_data ++ ["a"%string])) as -> by (by vm_compute). done.
Qed.
Print Assumptions C99_nested_refuted.

(** Two ordinary collections; "b" is deleted. *)
Definition ab_tree : tree := <[ex_data ++ ["b"%string] := NDir]> in_tree1.
Example C99_case : exists l s s', fresh_at ex_data ex_s0 /\ fhist ex_data ex_s0 l s /\ Forall ordinary_ev l /\ fstep ex_data s (FDelete "b") s' /\ ordinary_ev (FDelete "b") /\
  f_tree s !! (ex_data ++ ["b"%string]) = Some NDir /\ f_tree s' !! (ex_data ++ ["b"%string]) = None /\ ~ concerns s (FDelete "b") "a" /\ ordinary "a".
Proof.
  assert (Oa : ordinary "a") by (split_and!; try done; [cbn; intros [H|[]]; done|unfold meta_names; set_solver]).
  assert (Ob : ordinary "b") by (split_and!; try done; [cbn; intros [H|[]]; done|unfold meta_names; set_solver]).
  exists [FCreate "a"; FCreate "b"]%string, (FsDb ab_tree ["a"; "b"]%string ({["b"%string]} ∪ ({["a"%string]} ∪ ∅))),
    (FsDb (base.filter (fun x => ~ (ex_data ++ ["b"%string]) `prefix_of` x.1) ab_tree) ["a"%string] (({["b"%string]} ∪ ({["a"%string]} ∪ ∅)) ∖ {["b"%string]})).
  split; [apply ex_fresh|]. split.
  { eapply fhist_cons; [apply (FCreateOk ex_data ex_s0 "a" ex_tree in_tree1 in_tree1); [done|set_solver|set_solver|apply meta_write_refl|by vm_compute|]|].
    { exists in_tree1, (ex_data ++ ["a"%string]). split; [by vm_compute|apply writes_refl]. }
    cbn [f_rows f_open ex_s0 app].
    eapply fhist_cons; [apply (FCreateOk ex_data _ "b" in_tree1 ab_tree ab_tree); [done|set_solver|set_solver|apply meta_write_refl|by vm_compute|]|].
    { exists ab_tree, (ex_data ++ ["b"%string]). split; [by vm_compute|apply writes_refl]. }
    constructor. }
  split. { apply Forall_cons_2; [by intros n [= <-]|]. apply Forall_cons_2; [by intros n [= <-]|]. apply Forall_nil_2. }
  split.
  { apply (fdelete_ok ex_data _ "b" ab_tree); [set_solver|set_solver|apply meta_write_refl| |by vm_compute|done]. unfold remove_at.
    rewrite bool_decide_eq_false_2 by (vm_compute; discriminate). assert (walk ab_tree ex_data (components "b") = Some (ex_data ++ ["b"%string])) as -> by (by vm_compute). done. }
  split; [by intros n [= <-]|]. split; [by vm_compute|]. split; [by vm_compute|]. split; [by intros H|done].
Qed.
