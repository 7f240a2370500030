(** Embedding texts: C84, C85, C86. *)
From Verif Require Import GoBase FloatModel HeapModel ProgModel StateModel HnswModel StoreModel CollModel EmbedModel.
From Coq Require Import Ascii.
Open Scope nat_scope.

(** ** Small specifications *)
(** An order of range for every object. *)
Definition range_order (order : object -> list (string * jval)) : Prop :=
  forall o, order o ≡ₚ map_to_list (o_props o).
(** How many of the first [i] objects came without a vector. *)
Definition missing_before (os : list object) (i : nat) : nat :=
  length (List.filter (fun o => match o_vec o with None => true | _ => false end) (take i os)).
(** The objects after embedding: given vectors are kept, the others get the
    rows in turn; nothing else changes. *)
Definition embedded (os : list object) (rows : list fvec) (os' : list object) : Prop :=
  length os' = length os /\
  forall i o, os !! i = Some o -> exists o', os' !! i = Some o' /\ o_id o' = o_id o /\ o_props o' = o_props o /\
    match o_vec o with
    | Some v => o_vec o' = Some v
    | None => exists row, rows !! missing_before os i = Some row /\ o_vec o' = Some row
    end.

(** ** C84 *)
Lemma assign_spec os : forall rows,
  length (List.filter needs_vec os) <= length rows ->
  exists os', assign_vecs os rows = Val os' /\ embedded os rows os'.
Proof.
  induction os as [|o os IH]; intros rows Hl.
  - exists []. split; [done|]. split; [done|]. intros i o H. by rewrite lookup_nil in H.
  - cbn [assign_vecs List.filter] in *. destruct (needs_vec o) eqn:En.
    + destruct rows as [|row rows]; [cbn in Hl; lia|]. destruct (IH rows) as (os' & E & HL & HE); [cbn in Hl; lia|].
      rewrite E. cbn. eexists. split; [reflexivity|]. split; [cbn; lia|].
      unfold needs_vec in En. destruct (o_vec o) eqn:Ev; [done|].
      intros [|i] o1 H1; cbn in H1.
      * injection H1 as <-. eexists. split; [reflexivity|]. cbn. split; [done|]. split; [done|]. rewrite Ev.
        exists row. done.
      * destruct (HE i o1 H1) as (o' & H2 & H3 & H4 & H5). exists o'. split; [done|]. split; [done|]. split; [done|].
        destruct (o_vec o1); [done|]. unfold missing_before in *. cbn. rewrite Ev. cbn. exact H5.
    + destruct (IH rows Hl) as (os' & E & HL & HE). rewrite E. cbn. eexists. split; [reflexivity|]. split; [cbn; lia|].
      unfold needs_vec in En. destruct (o_vec o) eqn:Ev; [|done].
      intros [|i] o1 H1; cbn in H1.
      * injection H1 as <-. eexists. split; [reflexivity|]. split; [done|]. split; [done|]. by rewrite Ev.
      * destruct (HE i o1 H1) as (o' & H2 & H3 & H4 & H5). exists o'. split; [done|]. split; [done|]. split; [done|].
        destruct (o_vec o1); [done|]. unfold missing_before in *. cbn. rewrite Ev. exact H5.
Qed.
Lemma assign_short os : forall rows, length rows < length (List.filter needs_vec os) -> assign_vecs os rows = Pan PIndex.
Proof.
  induction os as [|o os IH]; intros rows Hl; cbn [assign_vecs List.filter] in *; [cbn in Hl; lia|].
  destruct (needs_vec o).
  - destruct rows as [|row rows]; [done|]. by rewrite IH by (cbn in Hl; lia).
  - by rewrite IH.
Qed.

(** One request with the texts of the objects without a vector, in their
    order; what comes of each kind of answer. *)
Theorem C84_embedding_partial :
  forall C other order server os,
    cp_embed C = Some (text2vec other order server) -> range_order order ->
    exists ts, Forall2 (may_be_text other) (List.filter (fun o => match o_vec o with None => true | _ => false end) os) ts /\
      match server ts with
      | Reply status (Some rows) =>
          if (status =? 200)%N then
            if length ts <=? length rows then exists os', embed_objects C os = Val os' /\ embedded os rows os'
            else embed_objects C os = Pan PIndex
          else embed_objects C os = Err EEmbed
      | _ => embed_objects C os = Err EEmbed
      end.
Proof.
  intros C other order server os HC Ho. unfold embed_objects. rewrite HC. unfold text2vec.
  change (fun o : object => match o_vec o with Some _ => false | None => true end) with needs_vec.
  set (f := List.filter needs_vec os). set (ts := (fun o => flat_properties other (order o)) <$> f).
  exists ts. split.
  { unfold ts. clearbody f. induction f as [|o f IH]; cbn; constructor; [|done]. exists (order o). done. }
  assert (length ts = length f) as Hl by apply fmap_length. rewrite Hl.
  destruct (server ts) as [|status [rows|]]; [done| |done]. destruct (status =? 200)%N; [|done].
  destruct (Nat.leb_spec (length f) (length rows)).
  - by apply assign_spec.
  - by apply assign_short.
Qed.
Print Assumptions C84_embedding_partial.

(** Two objects, one answer too few. *)
Definition ob (s : string) : object := Object 0 {[ "a"%string := JStr s ]} None.
Definition ex_order : object -> list (string * jval) := fun o => map_to_list (o_props o).
Definition echo (n : nat) : list string -> reply := fun ts => Reply 200 (Some (take n ((fun t => [N.of_nat (String.length t)]) <$> ts))).
Definition no_other : jval -> string := fun _ => "?"%string.
Definition ex_coll (n : nat) : cparams :=
  CParams (HParams 2 2 4 4 false Euclidean) ["a"%string] (Some (text2vec no_other ex_order (echo n))) (Json (fun _ => None) (fun _ => None)) 100 1 5.

Theorem C84_embedding_refuted :
  exists C other order server os, cp_embed C = Some (text2vec other order server) /\ range_order order /\
    os <> [] /\ embed_objects C os = Pan PIndex.
Proof.
  exists (ex_coll 1), no_other, ex_order, (echo 1), [ob "x"; ob "yy"]. split; [done|]. split; [by intros o|].
  split; [done|]. vm_compute. reflexivity.
Qed.
Print Assumptions C84_embedding_refuted.

Example C84_case :
  o_vec <$> (match embed_objects (ex_coll 2) [ob "x"; Object 0 ∅ (Some [7%N]); ob "yy"] with Val l => l | _ => [] end)
  = [Some [5%N]; Some [7%N]; Some [6%N]].
Proof. vm_compute. reflexivity. Qed.

(** ** C85 *)
(** The piece of the text that a property contributes. *)
Definition piece (other : jval -> string) (p : string * jval) : list string :=
  match p.2 with JNull => [] | v => [(p.1 ++ ": " ++ fmt_v other v ++ ",")%string] end.
Lemma flat_pieces other l : flat_properties other l = String.concat "" (l ≫= piece other).
Proof.
  assert (forall a l, String.concat "" (a :: l) = (a ++ String.concat "" l)%string) as Hc.
  { assert (forall a, (a ++ "")%string = a) as Hn by (intros a; induction a as [|c a IH]; [done|]; change (String c (a ++ "") = String c a); by rewrite IH).
    intros a [|b l']; [symmetry; apply Hn|done]. }
  induction l as [|[k v] l IH]; [done|]. cbn [flat_properties]. rewrite bind_cons. unfold piece at 1. cbn [fst snd].
  destruct v; cbn [app]; [done|..]; by rewrite Hc, IH.
Qed.

(** Two texts of one object consist of the same pieces; they are equal if at
    most one of its properties is not null. *)
Theorem C85_text_partial :
  forall other o t1 t2, may_be_text other o t1 -> may_be_text other o t2 ->
    (exists ps1 ps2, ps1 ≡ₚ ps2 /\ t1 = String.concat "" ps1 /\ t2 = String.concat "" ps2 /\
       (forall s, s ∈ ps1 <-> exists k v, o_props o !! k = Some v /\ v <> JNull /\ s = (k ++ ": " ++ fmt_v other v ++ ",")%string)) /\
    ((forall k1 k2 v1 v2, o_props o !! k1 = Some v1 -> o_props o !! k2 = Some v2 -> v1 <> JNull -> v2 <> JNull -> k1 = k2) -> t1 = t2).
Proof.
  intros other o t1 t2 (l1 & H1 & ->) (l2 & H2 & ->).
  assert (l1 ≫= piece other ≡ₚ l2 ≫= piece other) as Hp by (by rewrite H1, H2).
  assert (forall s, s ∈ l1 ≫= piece other <-> exists k v, o_props o !! k = Some v /\ v <> JNull /\ s = (k ++ ": " ++ fmt_v other v ++ ",")%string) as Hs.
  { intros s. rewrite elem_of_list_bind. split.
    - intros ([k v] & Hi & Hin). rewrite H1 in Hin. apply elem_of_map_to_list in Hin. unfold piece in Hi. cbn [fst snd] in Hi.
      exists k, v. destruct v; [by apply elem_of_nil in Hi|..]; by apply elem_of_list_singleton in Hi.
    - intros (k & v & Hk & Hv & ->). exists (k, v). split.
      + unfold piece. cbn [fst snd]. destruct v; [done|..]; by apply elem_of_list_singleton.
      + rewrite H1. by apply elem_of_map_to_list. }
  split.
  - exists (l1 ≫= piece other), (l2 ≫= piece other). split; [done|]. split; [apply flat_pieces|]. split; [apply flat_pieces|done].
  - intros Hone. rewrite !flat_pieces. f_equal.
    assert (NoDup (map_to_list (o_props o)).*1) as Hnd by apply NoDup_fst_map_to_list.
    rewrite <- H1 in Hnd.
    assert (length (l1 ≫= piece other) <= 1) as Hlen.
    { assert (forall p, p ∈ l1 -> o_props o !! p.1 = Some p.2) as Hin.
      { intros [k v] Hi. rewrite H1 in Hi. by apply elem_of_map_to_list. }
      clear Hp H1 H2 Hs. induction l1 as [|[k v] l IH]; [cbn; lia|]. rewrite bind_cons, app_length.
      cbn in Hnd. apply NoDup_cons in Hnd as [Hni Hnd].
      assert (length (l ≫= piece other) <= 1) as IH' by (apply IH; [done|]; intros p Hp; apply Hin; by right).
      assert (v = JNull \/ v <> JNull) as [-> | Hv] by (destruct v; (by left) || (by right)); [exact IH'|].
      assert (l ≫= piece other = []) as ->.
      { destruct (l ≫= piece other) as [|s r] eqn:E; [done|]. exfalso.
        assert (s ∈ l ≫= piece other) as Hs by (rewrite E; by left).
        apply elem_of_list_bind in Hs as ([k' v'] & Hs & Hi).
        assert (v' <> JNull) as Hv' by (intros ->; by apply elem_of_nil in Hs).
        pose proof (Hin (k, v) ltac:(by left)) as A. pose proof (Hin (k', v') ltac:(by right)) as B.
        pose proof (Hone k k' v v' A B Hv Hv') as ->. apply Hni. by apply (elem_of_list_fmap_1 fst) in Hi. }
      unfold piece. cbn [snd]. destruct v; cbn; lia. }
    destruct (l1 ≫= piece other) as [|s [|]]; [|..].
    + by apply Permutation_nil_l in Hp.
    + by apply Permutation_length_1_inv in Hp.
    + cbn in Hlen. lia.
Qed.
Print Assumptions C85_text_partial.

Lemma one_list (k : string) (v : jval) : map_to_list ({[ k := v ]} : props) = [(k, v)].
Proof. apply (map_to_list_singleton (M := gmap string)). Qed.
Lemma two_list (k1 k2 : string) (v1 v2 : jval) : k1 <> k2 ->
  map_to_list (<[k1 := v1]> {[ k2 := v2 ]} : props) ≡ₚ [(k1, v1); (k2, v2)].
Proof.
  intros H. etrans; [apply (map_to_list_insert (M := gmap string)); by apply lookup_singleton_ne|].
  by rewrite one_list.
Qed.

Theorem C85_text_refuted :
  exists other o t1 t2, may_be_text other o t1 /\ may_be_text other o t2 /\ t1 <> t2.
Proof.
  set (p := (<["a"%string := JStr "x"]> {[ "b"%string := JStr "y" ]} : props)).
  exists no_other, (Object 0 p None),
    "a: x,b: y,"%string, "b: y,a: x,"%string.
  assert (map_to_list p ≡ₚ [("a", JStr "x"); ("b", JStr "y")]%string) as H.
  { by apply two_list. }
  split; [|split; [|done]]; eexists; cbn [o_props]; (split; [rewrite H|]).
  - reflexivity.
  - done.
  - apply perm_swap.
  - done.
Qed.
Print Assumptions C85_text_refuted.

Example C85_case :
  let o := Object 0 (<["a"%string := JStr "x"]> {[ "b"%string := JNull ]}) None in
  may_be_text no_other o "a: x,".
Proof.
  exists [("a", JStr "x"); ("b", JNull)]%string. split; [|reflexivity]. cbn [o_props]. by rewrite two_list.
Qed.

(** ** C86 *)
(** [c] does not occur in the string. *)
Fixpoint without (c : ascii) (s : string) : Prop :=
  match s with EmptyString => True | String d s' => c <> d /\ without c s' end.
Lemma split_at c s1 : forall s2 r1 r2, without c s1 -> without c s2 ->
  (s1 ++ String c r1)%string = (s2 ++ String c r2)%string -> s1 = s2 /\ r1 = r2.
Proof.
  induction s1 as [|d s1 IH]; intros [|e s2] r1 r2 H1 H2 E; cbn in *.
  - by injection E as ->.
  - injection E as -> _. by destruct H2.
  - injection E as -> _. by destruct H1.
  - injection E as -> E. destruct H1, H2. destruct (IH s2 r1 r2) as [-> ->]; done.
Qed.
Lemma str_app_assoc (a b c : string) : ((a ++ b) ++ c = a ++ (b ++ c))%string.
Proof. induction a as [|x a IH]; [done|]. change (String x ((a ++ b) ++ c) = String x (a ++ (b ++ c)))%string. by rewrite IH. Qed.

(** Properties that can be read back from the text: strings without a comma,
    under names without a colon. *)
Definition readable (p : props) : Prop :=
  forall k v, p !! k = Some v -> without ":"%char k /\ exists s, v = JStr s /\ without ","%char s.

Lemma flat_inj other l1 : forall l2,
  (forall k v, (k, v) ∈ l1 ++ l2 -> without ":"%char k /\ exists s, v = JStr s /\ without ","%char s) ->
  flat_properties other l1 = flat_properties other l2 -> l1 = l2.
Proof.
  assert (forall k s l, flat_properties other ((k, JStr s) :: l) = (k ++ String ":"%char (String " "%char (s ++ String ","%char (flat_properties other l))))%string) as Hcons.
  { intros k s l. cbn [flat_properties fmt_v]. rewrite !str_app_assoc. reflexivity. }
  assert (forall k r, (k ++ String ":"%char r)%string <> ""%string) as Hne by (intros [|? ?] r; done).
  induction l1 as [|[k v] l1 IH]; intros l2 Hok E.
  - destruct l2 as [|[k' v'] l2]; [done|]. destruct (Hok k' v' ltac:(by left)) as (_ & s & -> & _). rewrite Hcons in E.
    by destruct (Hne _ _ (eq_sym E)).
  - destruct (Hok k v ltac:(by left)) as (Hk & s & -> & Hc). rewrite Hcons in E.
    destruct l2 as [|[k' v'] l2]; [by destruct (Hne _ _ E)|].
    destruct (Hok k' v') as (Hk' & s' & -> & Hc'); [apply elem_of_app; right; by left|]. rewrite Hcons in E.
    apply split_at in E as [-> E]; [|done|done]. injection E as E. apply split_at in E as [-> E]; [|done|done].
    f_equal. apply IH; [|done].
    intros k1 v1 H1. apply Hok. apply elem_of_app in H1 as [H1|H1]; apply elem_of_app; [left; by right|right; by right].
Qed.

Theorem C86_text_injective_partial :
  forall other o1 o2 t,
    readable (o_props o1) -> readable (o_props o2) ->
    may_be_text other o1 t -> may_be_text other o2 t -> o_props o1 = o_props o2.
Proof.
  intros other o1 o2 t R1 R2 (l1 & H1 & ->) (l2 & H2 & E).
  apply flat_inj in E.
  - subst l2. rewrite H1 in H2. apply (map_to_list_inj (M := gmap string)). exact H2.
  - intros k v [Hi|Hi]%elem_of_app.
    + rewrite H1 in Hi. apply elem_of_map_to_list in Hi. by apply R1.
    + rewrite H2 in Hi. apply elem_of_map_to_list in Hi. by apply R2.
Qed.
Print Assumptions C86_text_injective_partial.

Theorem C86_text_injective_refuted :
  exists other o1 o2 t, may_be_text other o1 t /\ may_be_text other o2 t /\ o_props o1 <> o_props o2.
Proof.
  exists no_other, (Object 0 {[ "a"%string := JStr "x,b: y" ]} None),
    (Object 0 (<["a"%string := JStr "x"]> {[ "b"%string := JStr "y" ]}) None), "a: x,b: y,"%string.
  split; [|split].
  - exists [("a", JStr "x,b: y")]%string. cbn [o_props]. by rewrite one_list.
  - exists [("a", JStr "x"); ("b", JStr "y")]%string. cbn [o_props]. by rewrite two_list.
  - cbn [o_props]. intros E. apply (f_equal (.!! "b"%string)) in E. vm_compute in E. done.
Qed.
Print Assumptions C86_text_injective_refuted.

Example C86_case : readable (o_props (ob "x, y")) -> False.
Proof. intros H. destruct (H "a"%string (JStr "x, y")) as (_ & s & [= <-] & Hs); [done|]. by destruct Hs as (_ & Hs & _). Qed.
Example C86_case2 : readable (o_props (ob "some words")) /\ may_be_text no_other (ob "some words") "a: some words,".
Proof.
  split.
  - intros k v H. cbn [o_props ob] in H. apply lookup_singleton_Some in H as [<- <-].
    split; [cbn; split; [discriminate|done]|]. exists "some words"%string. split; [done|]. cbn.
    repeat (split; [discriminate|]). done.
  - exists [("a", JStr "some words")]%string. cbn [o_props ob]. by rewrite one_list.
Qed.
