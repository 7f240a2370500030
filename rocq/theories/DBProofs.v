(** Facts about the database model: integers stored as JSON numbers, the
    metadata rows, reopening. *)
From stdpp Require Import relations.
From Verif Require Import GoBase FloatModel ProgModel StateModel WalModel HnswModel StoreModel CollModel CallModel DBModel ProofBase CallProofs.
From Coq Require Import SpecFloat Zpower Ascii.
Open Scope nat_scope.

(** ** Integers below 2^53 survive the trip through a float64 *)
Lemma digits2_size p : digits2_pos p = Pos.size p.
Proof. induction p as [p IH|p IH|]; cbn; [by rewrite IH..|done]. Qed.
Lemma digits2_le p : (Zpos p < 2 ^ 53)%Z -> (Zpos (digits2_pos p) <= 53)%Z.
Proof.
  intros Hp. rewrite digits2_size. pose proof (Pos.size_le p) as H.
  assert (2 ^ Zpos (Pos.size p) <= 2 * Zpos p)%Z as H1 by (rewrite <- Pos2Z.inj_pow; lia).
  assert (2 ^ Zpos (Pos.size p) < 2 ^ 54)%Z as H2 by lia. apply Z.pow_lt_mono_r_iff in H2; lia.
Qed.
Lemma digits2_shift d p : Zpos (digits2_pos (shift_pos d p)) = (Zpos d + Zpos (digits2_pos p))%Z.
Proof.
  unfold shift_pos. induction d as [|d IH] using Pos.peano_ind; [cbn; lia|].
  rewrite Pos.iter_succ. cbn [digits2_pos]. lia.
Qed.
Lemma shr_fexp_same m e : (Zpos (digits2_pos m) + e = 53 + e)%Z -> (-1074 <= e)%Z ->
  shr_fexp 53 1024 (Zpos m) e loc_Exact = (Build_shr_record (Zpos m) false false, e).
Proof.
  intros Hd He. unfold shr_fexp. cbn [Zdigits2 shr_record_of_loc]. rewrite Hd.
  replace (fexp 53 1024 (53 + e) - e)%Z with 0%Z by (unfold fexp, emin; lia). done.
Qed.
Lemma normalize_exact p : (Zpos p < 2 ^ 53)%Z ->
  sf_to_Z (binary_normalize 53 1024 (Zpos p) 0 false) = Zpos p.
Proof.
  intros Hp. pose proof (digits2_le _ Hp) as Hd. cbn [binary_normalize]. unfold binary_round.
  set (d := Zpos (digits2_pos p)) in *. assert (1 <= d)%Z by lia.
  assert (Hf : fexp 53 1024 (d + 0) = (d - 53)%Z) by (unfold fexp, emin; lia). rewrite Hf.
  assert (exists m, shl_align p 0 (d - 53) = (m, (d - 53)%Z) /\ Zpos (digits2_pos m) = 53%Z /\ Zpos m = (2 ^ (53 - d) * Zpos p)%Z) as (m & Hs & Hdm & Hm).
  { unfold shl_align. destruct (d - 53 - 0)%Z as [|q|q] eqn:E.
    - exists p. split_and!; [f_equal; lia|lia|]. replace (53 - d)%Z with 0%Z by lia. lia.
    - lia.
    - exists (shift_pos q p). split_and!; [done|rewrite digits2_shift; lia|].
      rewrite shift_pos_correct, Zpower_pos_nat, Zpower_nat_Z. f_equal. f_equal. lia. }
  rewrite Hs. unfold binary_round_aux.
  rewrite shr_fexp_same by lia. cbn [shr_m loc_of_shr_record round_nearest_even].
  rewrite shr_fexp_same by lia. cbn [shr_m].
  replace (Zle_bool (d - 53) (1024 - 53)) with true by (symmetry; apply Zle_imp_le_bool; lia).
  cbn [sf_to_Z cond_Zopp]. case_match eqn:E.
  - apply Z.leb_le in E. assert (d = 53)%Z as -> by lia. rewrite Hm. change (2 ^ (53 - 53))%Z with 1%Z. change (2 ^ (53 - 53))%Z with 1%Z. lia.
  - rewrite Hm. replace (- (d - 53))%Z with (53 - d)%Z by lia. rewrite Z.mul_comm, Z.div_mul; [done|]. apply Z.pow_nonzero; lia.
Qed.
Lemma f64_int_exact z : (0 <= z < 2 ^ 53)%Z -> f64_int z = z.
Proof.
  intros Hz. unfold f64_int. destruct z as [|p|p]; [by vm_compute| |lia]. rewrite normalize_exact by lia.
  case_match eqn:E; [done|]. apply Z.ltb_ge in E. lia.
Qed.

(** ** Which names are plain *)
Lemma has_slash_spec s : has_slash s = false <-> ~ In "/"%char (list_ascii_of_string s).
Proof.
  unfold has_slash. induction s as [|c s IH]; [cbn; tauto|]. cbn [String.index list_ascii_of_string In].
  cbn [String.prefix]. destruct (ascii_dec "/" c) as [<-|Hc].
  - replace (String.prefix "" s) with true by by destruct s. split; [done|]. intros H. destruct H. by left.
  - destruct (String.index 0 "/" s) as [n|].
    + split; [done|]. intros H. destruct IH as [_ IH]. discriminate IH. intros Hi. apply H. by right.
    + split; [|done]. intros _ [H|H]; [done|]. by apply IH in H.
Qed.

(** ** What the operations do *)
Definition stored (c : config) : config :=
  Config (cf_name c) (cf_index c) (cf_embedder c) (cf_data c) (params_stored (cf_params c)) (cf_embcfg c) (cf_maps c).
(** The configuration a collection created with [c] has after a reopening. *)
Definition reloaded (c : config) : config :=
  Config (cf_name c) (cf_index c) (cf_embedder c) (cf_data c) (params_stored (cf_params c)) (cf_embcfg c) [].
Definition names (rows : list row) : list string := (fun r => cf_name (row_cfg r)) <$> rows.

Lemma reopen_empty : reopen empty_disk = Val empty_st.
Proof. by vm_compute. Qed.
Lemma existsb_names rows n : existsb (fun r => String.eqb (cf_name (row_cfg r)) n) rows = true <-> n ∈ names rows.
Proof.
  unfold names. rewrite existsb_exists, elem_of_list_fmap. split.
  - intros (r & Hr & E). apply String.eqb_eq in E. exists r. split; [done|]. by apply elem_of_list_In.
  - intros (r & -> & Hr). exists r. split; [by apply elem_of_list_In|]. apply String.eqb_refl.
Qed.
Lemma existsb_names_false rows n : existsb (fun r => String.eqb (cf_name (row_cfg r)) n) rows = false <-> n ∉ names rows.
Proof. rewrite <- existsb_names. by destruct (existsb _ _). Qed.
Lemma elem_filter_rows rows n r :
  r ∈ List.filter (fun r => negb (String.eqb (cf_name (row_cfg r)) n)) rows <-> r ∈ rows /\ cf_name (row_cfg r) <> n.
Proof.
  rewrite !elem_of_list_In, filter_In. destruct (String.eqb_spec (cf_name (row_cfg r)) n); cbn; split; naive_solver.
Qed.
Lemma names_filter rows n m :
  m ∈ names (List.filter (fun r => negb (String.eqb (cf_name (row_cfg r)) n)) rows) <-> m ∈ names rows /\ m <> n.
Proof.
  unfold names. rewrite !elem_of_list_fmap. split.
  - intros (r & -> & [Hr Hn]%elem_filter_rows). split; [by exists r|done].
  - intros [(r & -> & Hr) Hn]. exists r. split; [done|]. by apply elem_filter_rows.
Qed.
Lemma NoDup_filter_rows rows n : NoDup (names rows) -> NoDup (names (List.filter (fun r => negb (String.eqb (cf_name (row_cfg r)) n)) rows)).
Proof.
  induction rows as [|r rows IH]; [done|]. cbn. intros [Hr Hn]%NoDup_cons. destruct (String.eqb _ _); cbn; [by apply IH|].
  apply NoDup_cons. split; [|by apply IH]. intros H. apply Hr. by apply names_filter in H as [H _].
Qed.

Lemma validate_no_pan c p : validate c <> Pan p.
Proof.
  unfold validate, validate_hnsw. repeat (case_match; try done). all: cbn; repeat (case_match; try done).
Qed.

Lemma create_val c D D' i : create_collection c D = (D', Val i) ->
  db_closed D = false /\ validate c = Val tt /\ db_colls D !! cf_name c = None /\ cf_name c ∉ names (db_rows D) /\
  cf_index c = "hnsw"%string /\ db_files D !! cf_name c = None /\ i = length (db_handles D) /\
  D' = DB (db_rows D ++ [Row (db_next D) (stored c)]) (S (db_next D)) (db_files D) (<[cf_name c := i]> (db_colls D))
         (db_handles D ++ [Handle c empty_st]) false.
Proof.
  unfold create_collection. destruct (db_closed D) eqn:Ecl; [done|]. destruct (validate c) as [[]|e|p]; [|done..].
  destruct (db_colls D !! cf_name c) as [j|] eqn:Ec; [done|].
  assert (Hm : forall D1 n, meta_create c D = (D1, Val n) ->
    cf_name c ∉ names (db_rows D) /\ db_files D !! cf_name c = None /\
    D1 = DB (db_rows D ++ [Row (db_next D) (stored c)]) (S (db_next D)) (<[cf_name c := FDir empty_disk]> (db_files D)) (db_colls D) (db_handles D) (db_closed D)).
  { intros D1 n. unfold meta_create. destruct (cf_params c) eqn:Ep; [done| |].
    all: destruct (negb _); [done|]; destruct (existsb _ _) eqn:Ee; [done|]; unfold mkdir; destruct (has_slash _); [done|];
      destruct (_ || _); [done|]; destruct (db_files D !! cf_name c) eqn:Ef; [done|]; intros [= <- <-];
      split_and!; [by apply existsb_names_false|done|]; unfold stored; by rewrite Ep. }
  destruct (meta_create c D) as [D1 [n|e|p]] eqn:Em; [|done..]. destruct (Hm _ _ eq_refl) as (H1 & H2 & ->). cbn [db_files db_handles db_rows db_next db_colls db_closed].
  rewrite lookup_insert. unfold new_collection. cbn [d_cfile empty_disk].
  replace (open_counter []) with (@Val N 0%N) by by vm_compute. cbn [mbind out_bind].
  destruct (String.eqb_spec (cf_index c) "hnsw") as [Ei|Ei]; [|done]. change (Disk [] [] ∅ ∅) with empty_disk. rewrite reopen_empty. cbn [mbind out_bind].
  intros [= <- <-]. split_and!; try done. rewrite delete_insert by done. by rewrite Ecl.
Qed.

(** A failing call does not touch the handles and the names, but it may leave
    a row (and a directory) behind. *)
Lemma create_fail c D D' r : create_collection c D = (D', r) -> (forall i, r <> Val i) ->
  (exists e, r = Err e) /\ db_colls D' = db_colls D /\ db_handles D' = db_handles D /\ db_closed D' = db_closed D /\
  (D' = D \/ db_rows D' = db_rows D ++ [Row (db_next D) (stored c)] /\ cf_name c ∉ names (db_rows D)).
Proof.
  intros H Hr. unfold create_collection in H. destruct (db_closed D) eqn:Ecl; [injection H as <- <-; split_and!; eauto|].
  destruct (validate c) as [[]|e|p] eqn:Ev; [|injection H as <- <-; split_and!; eauto|by destruct (validate_no_pan c p)].
  destruct (db_colls D !! cf_name c) as [j|] eqn:Ec; [injection H as <- <-; split_and!; eauto|].
  unfold meta_create in H.
  assert (Hs : forall p, params_stored p = params_stored (cf_params c) ->
    stored c = Config (cf_name c) (cf_index c) (cf_embedder c) (cf_data c) (params_stored p) (cf_embcfg c) (cf_maps c)) by (intros p0 ->; done).
  destruct (cf_params c) eqn:Ep; [injection H as <- <-; split_and!; eauto| |].
  all: destruct (negb _); [injection H as <- <-; split_and!; eauto|]; destruct (existsb _ _) eqn:Ee; [injection H as <- <-; split_and!; eauto|];
    apply existsb_names_false in Ee; rewrite (Hs _ eq_refl); unfold mkdir in H; destruct (has_slash _); [injection H as <- <-; cbn; split_and!; eauto|];
    destruct (_ || _); [injection H as <- <-; cbn; split_and!; eauto|]; destruct (db_files D !! cf_name c) eqn:Ef; [injection H as <- <-; cbn; split_and!; eauto|];
    cbn [db_files db_handles db_rows db_next db_colls db_closed] in H; rewrite lookup_insert in H; unfold new_collection in H; cbn [d_cfile empty_disk] in H;
    replace (open_counter []) with (@Val N 0%N) in H by (by vm_compute); cbn [mbind out_bind] in H;
    destruct (String.eqb_spec (cf_index c) "hnsw") as [Ei|Ei];
    [change (Disk [] [] ∅ ∅) with empty_disk in H; rewrite reopen_empty in H; cbn [mbind out_bind] in H; injection H as <- <-; by destruct (Hr (length (db_handles D)))
    |injection H as <- <-; cbn; split_and!; eauto].
Qed.

Lemma delete_val name D D' : delete_collection name D = (D', Val tt) ->
  db_closed D = false /\ is_Some (db_colls D !! name) /\ name ∈ names (db_rows D) /\
  D' = DB (List.filter (fun r => negb (String.eqb (cf_name (row_cfg r)) name)) (db_rows D)) (db_next D) (delete name (db_files D))
         (delete name (db_colls D)) (db_handles D) false.
Proof.
  unfold delete_collection. destruct (db_closed D); [done|]. destruct (db_colls D !! name) as [i|]; [|done].
  destruct (existsb _ _) eqn:E; [|done]. intros [= <-]. split_and!; eauto. by apply existsb_names.
Qed.
Lemma delete_fail name D D' r : delete_collection name D = (D', r) -> r <> Val tt -> D' = D /\ exists e, r = Err e.
Proof.
  unfold delete_collection. destruct (db_closed D); [intros [= <- <-]; eauto|]. destruct (db_colls D !! name) as [i|]; [|intros [= <- <-]; eauto].
  destruct (existsb _ _) eqn:E; intros [= <- <-]; [done|eauto].
Qed.

(** ** Closing and opening *)
Lemma disk_files D n : dd_files (db_disk D) !! n =
  match db_colls D !! n ≫= fun i => db_handles D !! i with
  | Some h => Some (FDir (disk_of (hd_st h)))
  | None => db_files D !! n
  end.
Proof.
  unfold db_disk. cbn [dd_files].
  apply (map_fold_ind (fun b m => b !! n = match m !! n ≫= fun i => db_handles D !! i with
    | Some h => Some (FDir (disk_of (hd_st h))) | None => db_files D !! n end)); [done|].
  intros k i m b Hk IH. destruct (decide (k = n)) as [->|Hne].
  - rewrite lookup_insert. cbn [mbind option_bind]. rewrite Hk in IH. cbn in IH.
    destruct (db_handles D !! i) as [h|]; [by rewrite lookup_insert|done].
  - rewrite lookup_insert_ne by done. destruct (db_handles D !! i) as [h|]; [by rewrite lookup_insert_ne|done].
Qed.
Lemma close_lookup D i : exists f, (forall h, f h = h \/ f h = close_handle h) /\
  db_handles (db_close D).1 !! i = f <$> db_handles D !! i.
Proof.
  cbn [db_close fst db_handles]. rewrite list_lookup_imap.
  exists (fun h => if bool_decide (i ∈ (map_to_list (db_colls D)).*2) then close_handle h else h).
  split; [|done]. intros h. case_bool_decide; [by right|by left].
Qed.
Lemma close_disk D : db_disk (db_close D).1 = db_disk D.
Proof.
  assert (dd_files (db_disk (db_close D).1) = dd_files (db_disk D)) as E; [|by unfold db_disk in *; cbn [dd_files db_close fst db_rows db_next] in *; rewrite E].
  apply map_eq. intros n. rewrite !disk_files. change (db_colls (db_close D).1) with (db_colls D). change (db_files (db_close D).1) with (db_files D).
  destruct (db_colls D !! n) as [i|]; [|done]. cbn [mbind option_bind].
  destruct (close_lookup D i) as (f & Hf & ->). destruct (db_handles D !! i) as [h|]; [|done]. cbn. by destruct (Hf h) as [-> | ->].
Qed.

Lemma new_collection_val c f h : new_collection c f = Val h ->
  f <> Some FFile /\ cf_index c = "hnsw"%string /\
  exists s, reopen match f with Some (FDir d) => d | _ => empty_disk end = Val s /\ h = Handle c s.
Proof.
  unfold new_collection. destruct f as [[d|]|]; [|done|].
  all: destruct (open_counter _) as [z|e|p]; [|done..]; cbn [mbind out_bind]; destruct (String.eqb_spec (cf_index c) "hnsw") as [Ei|Ei]; [|done];
    destruct (reopen _) as [s|e|p]; [|done..]; cbn [mbind out_bind]; intros [= <-]; split_and!; eauto.
Qed.
Lemma new_collection_ok c d s : cf_index c = "hnsw"%string -> reopen d = Val s -> new_collection c (Some (FDir d)) = Val (Handle c s).
Proof.
  intros Hi Hr. unfold new_collection. rewrite Hr. assert (exists z, open_counter (d_cfile d) = Val z) as [z ->].
  { revert Hr. unfold reopen. destruct (open_counter _) as [z|e|p]; [by exists z|done..]. }
  cbn [mbind out_bind]. by rewrite Hi.
Qed.

Lemma open_rows_val rows : forall D D', NoDup (names rows) -> open_rows rows D = Val D' ->
  db_rows D' = db_rows D /\
  (forall r, r ∈ rows -> exists i s, db_colls D' !! cf_name (row_cfg r) = Some i /\ db_handles D' !! i = Some (Handle (row_config r) s) /\
     new_collection (row_config r) (db_files D !! cf_name (row_cfg r)) = Val (Handle (row_config r) s)) /\
  (forall n, n ∉ names rows -> db_colls D' !! n = db_colls D !! n /\ db_files D' !! n = db_files D !! n) /\
  (forall n, n ∈ names rows -> db_files D' !! n = None) /\
  (forall i h, db_handles D !! i = Some h -> db_handles D' !! i = Some h) /\
  (db_closed D = false -> db_closed D' = false).
Proof.
  induction rows as [|r rows IH]; intros D D' Hnd H; cbn [open_rows] in H.
  { apply Val_inj in H as <-. split_and!; try done; intros ? Hx; by apply elem_of_nil in Hx. }
  cbn in Hnd. apply NoDup_cons in Hnd as [Hr Hnd]. change (cf_name (row_config r)) with (cf_name (row_cfg r)) in H.
  destruct (new_collection _ _) as [h|e|p] eqn:Eh; [|done..]. cbn [mbind out_bind] in H.
  assert (exists s, h = Handle (row_config r) s) as [s ->].
  { apply new_collection_val in Eh as (_ & _ & s & _ & ->). by exists s. }
  destruct (IH _ _ Hnd H) as (H1 & H2 & H3 & H4 & H5 & H6). cbn [db_rows db_colls db_files db_handles db_closed] in *. split_and!.
  - done.
  - intros r2 [-> | Hr2]%elem_of_cons.
    + destruct (H3 _ Hr) as [E1 _]. rewrite lookup_insert in E1. exists (length (db_handles D)), s. split_and!; [done| |done].
      apply H5. rewrite lookup_app_r, Nat.sub_diag by lia. done.
    + destruct (H2 _ Hr2) as (i & s2 & E1 & E2 & E3). exists i, s2. split_and!; [done..|].
      rewrite lookup_delete_ne in E3; [done|]. intros E. apply Hr. rewrite E. apply elem_of_list_fmap. by exists r2.
  - intros n Hn. cbn in Hn. apply not_elem_of_cons in Hn as [Hn Hn2]. destruct (H3 n Hn2) as [E1 E2].
    rewrite lookup_insert_ne in E1 by done. rewrite lookup_delete_ne in E2 by done. done.
  - intros n Hn. cbn in Hn. apply elem_of_cons in Hn as [-> | Hn]; [|by apply H4]. destruct (H3 _ Hr) as [_ E]. by rewrite lookup_delete in E.
  - intros i h2 Hi. apply H5. by apply lookup_app_l_Some.
  - intros _. by apply H6.
Qed.
Lemma open_rows_ok rows : forall D, NoDup (names rows) ->
  (forall r, r ∈ rows -> exists h, new_collection (row_config r) (db_files D !! cf_name (row_cfg r)) = Val h) ->
  exists D', open_rows rows D = Val D'.
Proof.
  induction rows as [|r rows IH]; intros D Hnd H; cbn [open_rows]; [by eexists|].
  cbn in Hnd. apply NoDup_cons in Hnd as [Hr Hnd]. change (cf_name (row_config r)) with (cf_name (row_cfg r)).
  destruct (H r ltac:(by left)) as [h ->]. cbn [mbind out_bind]. apply IH; [done|].
  intros r2 Hr2. cbn [db_files]. rewrite lookup_delete_ne; [apply H; by right|].
  intros E. apply Hr. rewrite E. apply elem_of_list_fmap. by exists r2.
Qed.
