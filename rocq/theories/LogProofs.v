(** Log records against the operations of CodecSpec. *)
From Verif Require Import GoBase FloatModel StateModel WalModel ProofBase CodecProofs CodecSpec.
Open Scope nat_scope.

(** The record the code writes for an operation. *)
Definition enc_wop (o : wop) : out bytes :=
  match o with
  | WAddVertex id l => enc_add_vertex id l
  | WSetEntry id l => enc_set_entry id l
  | WSetConns id l ns => enc_set_conns id l ns
  | WAddConn id l n => enc_add_conn id l n
  | WDelete id => enc_delete id
  end.

Lemma enc_wop_total o : exists r, enc_wop o = Val r.
Proof.
  destruct o; cbn [enc_wop]; eexists;
    [apply enc_add_vertex_eq|apply enc_set_entry_eq|apply enc_set_conns_eq|apply enc_add_conn_eq|apply enc_delete_eq].
Qed.

Lemma restore_wop o r s : wop_ok o -> enc_wop o = Val r -> restore r s = wop_apply o s.
Proof.
  destruct o as [id l|id l|id l ns|id l n|id]; cbn [enc_wop wop_ok wop_apply].
  - intros [Hi Hl] E. rewrite (restore_add_vertex id l Hi Hl r s E). unfold init_conns.
    by rewrite Nat.add_1_r.
  - intros [Hi Hl] E. by rewrite (restore_set_entry id l Hi Hl r s E).
  - intros (Hi & Hl & Hns & Hlen) E. rewrite (restore_set_conns id l Hi Hl r s ns Hns Hlen E).
    destruct (nodes s !! id) as [v|]; [|done]. cbn [or_pan mbind out_bind]. unfold vertex_set_conns.
    case_decide as Hd.
    + by destruct (lookup_lt_is_Some_2 _ _ Hd) as [cs ->].
    + by rewrite lookup_ge_None_2 by lia.
  - intros (Hi & Hl & Hn) E. rewrite (restore_add_conn id l Hi Hl r s n Hn E).
    destruct (nodes s !! id) as [v|]; [|done]. cbn [or_pan mbind out_bind]. unfold vertex_add_conn.
    case_decide as Hd.
    + destruct (lookup_lt_is_Some_2 _ _ Hd) as [cs Ecs]. rewrite Ecs.
      by rewrite (list_lookup_total_correct _ _ _ Ecs).
    + by rewrite lookup_ge_None_2 by lia.
  - intros Hi E. by rewrite (restore_delete id Hi r s E).
Qed.

(** No two operations share a record. *)
Lemma app_cut {A} (a b c d : list A) : length a = length b -> a ++ c = b ++ d -> a = b /\ c = d.
Proof. intros. by apply app_inj_1. Qed.

Lemma le_ids_inj ns ms :
  Forall id_ok ns -> Forall id_ok ms -> le_ids ns = le_ids ms -> ns = ms.
Proof.
  intros Hn. revert ms. induction Hn as [|n ns Hn Hns IH]; intros ms Hm E.
  - destruct ms as [|m ms]; [done|]. apply (f_equal length) in E. rewrite !le_ids_length in E. done.
  - destruct Hm as [|m ms Hm Hms].
    { apply (f_equal length) in E. rewrite !le_ids_length in E. done. }
    change (le_put 8 n ++ le_ids ns = le_put 8 m ++ le_ids ms) in E.
    apply app_cut in E as [E1 E2]; [|by rewrite !le_put_length].
    apply le_put_inj in E1; [|by rewrite pow256_8..]. subst. f_equal. by apply IH.
Qed.

Lemma level_put_inj l l' :
  level_ok l -> level_ok l' -> le_put 4 (u32 (N.of_nat l)) = le_put 4 (u32 (N.of_nat l')) -> l = l'.
Proof.
  intros H1 H2 E. apply le_put_inj in E; [|rewrite pow256_4; apply u32_lt..].
  rewrite !u32_small in E by done. lia.
Qed.
Lemma id_put_inj i j : id_ok i -> id_ok j -> le_put 8 i = le_put 8 j -> i = j.
Proof. intros H1 H2 E. by apply le_put_inj in E; [|rewrite pow256_8..]. Qed.

Lemma enc_wop_inj o1 o2 r : wop_ok o1 -> wop_ok o2 -> enc_wop o1 = Val r -> enc_wop o2 = Val r -> o1 = o2.
Proof.
  intros H1 H2 E1 E2. rewrite <- E2 in E1. clear E2 r.
  destruct o1 as [i l|i l|i l ns|i l n|i], o2 as [i' l'|i' l'|i' l' ns'|i' l' n'|i']; cbn [enc_wop wop_ok] in *;
    rewrite ?enc_add_vertex_eq, ?enc_set_entry_eq, ?enc_set_conns_eq, ?enc_add_conn_eq, ?enc_delete_eq in E1;
    apply Val_inj in E1; apply (f_equal (fun l => (head l, tail l))) in E1; cbn [head tail] in E1;
    pose proof (f_equal fst E1) as Eop; pose proof (f_equal snd E1) as Et; cbn [fst snd] in *; clear E1;
    try (exfalso; clear - Eop; discriminate Eop); clear Eop.
  - destruct H1 as [??], H2 as [??]. apply app_cut in Et as [Ea Eb]; [|by rewrite !le_put_length].
    apply id_put_inj in Ea; [|done..]. apply level_put_inj in Eb; [|done..]. by subst.
  - destruct H1 as [??], H2 as [??]. apply app_cut in Et as [Ea Eb]; [|by rewrite !le_put_length].
    apply id_put_inj in Ea; [|done..]. apply level_put_inj in Eb; [|done..]. by subst.
  - destruct H1 as (?&?&?&?), H2 as (?&?&?&?). apply app_cut in Et as [Ea Eb]; [|by rewrite !le_put_length].
    apply app_cut in Eb as [Eb Ec]; [|by rewrite !le_put_length].
    apply app_cut in Ec as [_ Ed]; [|by rewrite !le_put_length].
    apply id_put_inj in Ea; [|done..]. apply level_put_inj in Eb; [|done..].
    apply le_ids_inj in Ed; [|done..]. by subst.
  - destruct H1 as (?&?&?), H2 as (?&?&?). apply app_cut in Et as [Ea Eb]; [|by rewrite !le_put_length].
    apply app_cut in Eb as [Eb Ec]; [|by rewrite !le_put_length].
    apply id_put_inj in Ea; [|done..]. apply level_put_inj in Eb; [|done..].
    apply id_put_inj in Ec; [|done..]. by subst.
  - apply id_put_inj in Et; [|done..]. by subst.
Qed.

Lemma restore_unknown op r s : (4 < op)%N -> restore (op :: r) s = Err (EOpcode op).
Proof.
  intros H. cbn [restore]. unfold opAddVertex, opSetEntry, opSetConns, opAddConn, opDelete.
  repeat (rewrite (proj2 (N.eqb_neq op _)) by lia). done.
Qed.

(** A whole log. *)
Lemma replay_wops os rs s :
  Forall wop_ok os -> Forall2 (fun o r => enc_wop o = Val r) os rs ->
  replay rs s = wops_apply os s.
Proof.
  intros Hok H. revert s. induction H as [|o r os rs E H IH]; intros s; cbn [replay wops_apply]; [done|].
  inversion_clear Hok. rewrite (restore_wop o r s) by done.
  destruct (wop_apply o s); cbn [mbind out_bind]; [by apply IH|done..].
Qed.
