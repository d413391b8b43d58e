(** The invariant of the whole pool, preserved by every operation. *)
From Verif Require Import TxModel PoolModel PoolProofs PoolProofs2 PoolProofs3.

(** A hash names one transaction ([U]) and the transaction decides whether it is a
    system-contract call ([SY]): collision resistance of the hash, stated for the
    transactions of one history. *)
Definition op_ok (U : N → ptx) (SY : N → bool) (o : op) : Prop :=
  match o with
  | OInsert tx _ _ => U (t_hash tx) = tx ∧ SY (t_hash tx) = false
  | OInsertSys tx => U (t_hash tx) = tx ∧ SY (t_hash tx) = true
  | _ => True
  end.
Definition consistent (ops : list op) : Prop := ∃ U SY, Forall (op_ok U SY) ops.

Definition bucket_ok (U : N → ptx) (SY : N → bool) (hd : gmap N (list N)) (b : gmap (list N) (gmap N ptx)) : Prop :=
  ∀ d m, b !! d = Some m → m ≠ ∅ ∧
    ∀ h tx, m !! h = Some tx → t_hash tx = h ∧ U h = tx ∧ t_data tx = d ∧ hd !! h = Some d ∧ SY h = true.

Record Inv (capacity : N) (U : N → ptx) (SY : N → bool) (s : pool) : Prop := {
  i_d : DInv (p_txmap s) (p_next s) (p_flags s) (p_pending s) (p_real s) (p_co s);
  i_co : N.of_nat (length (p_co s)) <= capacity;
  i_stock : N.of_nat (size (p_txmap s)) + sys_total (p_buckets s) <= p_stock s;
  i_tm : ∀ h p, p_txmap s !! h = Some p → U h = pt_tx p ∧ SY h = false;
  i_bk : bucket_ok U SY (p_hash_data s) (p_buckets s);
}.

Lemma length_co_le tm nx f pend real co : DInv tm nx f pend real co → (length co ≤ size tm)%nat.
Proof.
  intros D. assert (NoDup (phash <$> co.*1)) as N1.
  { apply NoDup_fmap_2_strong; [|apply D]. intros x y Hx Hy E.
    apply (d_co _ _ _ _ _ _ D) in Hx as [Hx _]. apply (d_co _ _ _ _ _ _ D) in Hy as [Hy _]. congruence. }
  rewrite <- (fmap_length fst co), <- (fmap_length phash (co.*1)).
  rewrite <- (size_dom (D:=gset N)). rewrite <- (size_list_to_set (C:=gset N) (phash <$> co.*1)) by done.
  apply subseteq_size. intros h Hh. apply elem_of_list_to_set, elem_of_list_fmap in Hh as (p & -> & Hp).
  apply (d_co _ _ _ _ _ _ D) in Hp as [Hp _]. apply elem_of_dom. eauto.
Qed.

Lemma flush_to_pending_inv s s' :
  DInv (p_txmap s) (p_next s) (p_flags s) (p_pending s) (p_real s) (p_co s) → flush_to_pending s = Ok s' →
  DInv (p_txmap s') (p_next s') (p_flags s') (p_pending s') (p_real s') [] ∧ p_co s' = [] ∧
  p_txmap s' = p_txmap s ∧ p_next s' = p_next s ∧ p_hash_data s' = p_hash_data s ∧ p_buckets s' = p_buckets s ∧
  p_stock s' = p_stock s ∧ p_gap s' = p_gap s.
Proof.
  intros D H. unfold flush_to_pending in H.
  destruct (fold_left drain_one _ _) as [[[f pend] real]| |] eqn:E; try discriminate. injection H as <-. cbn.
  split; [|done]. by eapply drain_inv.
Qed.

Section PoolInv.
Context (capacity timeout_config : N) (sort : list ptr → list ptr) (U : N → ptx) (SY : N → bool).
Hypothesis (sort_perm : ∀ l, sort l ≡ₚ l) (cap_pos : 0 < capacity).
Local Notation Inv := (Inv capacity U SY).

Lemma inv_new : Inv pool_new.
Proof using capacity U SY.
  clear sort_perm cap_pos sort timeout_config.
  split; cbn.
  - split.
    + intros h p Hp. by rewrite lookup_empty in Hp.
    + intros h1 h2 p1 p2 Hp. by rewrite lookup_empty in Hp.
    + intros p Hp. by apply not_elem_of_nil in Hp.
    + constructor.
    + intros p Hp. by apply not_elem_of_nil in Hp.
    + constructor.
    + intros a q n p Hp. by rewrite lookup_empty in Hp.
    + intros h p Hp. by rewrite lookup_empty in Hp.
    + intros h p Hp. by rewrite lookup_empty in Hp.
    + cbn. set_solver.
    + intros a q Hp. by rewrite lookup_empty in Hp.
    + intros a q Hp. by rewrite lookup_empty in Hp.
  - lia.
  - rewrite sys_total_empty, map_size_empty. lia.
  - intros h p. by rewrite lookup_empty.
  - intros d m. by rewrite lookup_empty.
Qed.

Lemma refresh_inv s s' : Inv s → flush_to_pending s = Ok s' → Inv s'.
Proof.
  intros I H. destruct (flush_to_pending_inv _ _ (i_d _ _ _ _ I) H) as (D & E1 & E2 & E3 & E4 & E5 & E6 & E7).
  split; rewrite ?E1, ?E2, ?E3, ?E4, ?E5, ?E6; try apply I.
  - by rewrite E2, E3 in D.
  - cbn. lia.
Qed.

(** Adding a fresh pointer to the map and the queue. *)
Lemma push_inv tm nx f pend real co tx d :
  DInv tm nx f pend real co → tm !! t_hash tx = None →
  DInv (<[t_hash tx := Ptr nx tx]> tm) (nx + 1) f pend real (co ++ [(Ptr nx tx, d)]).
Proof.
  intros D HN. set (p0 := Ptr nx tx).
  assert (∀ p, tm !! phash p = Some p → <[t_hash tx := p0]> tm !! phash p = Some p) as HI.
  { intros p Hp. rewrite lookup_insert_ne; [done|]. congruence. }
  assert (∀ h p, tm !! h = Some p → p ≠ p0 ∧ pt_id p ≠ nx) as HF.
  { intros h p Hp. apply (d_txmap _ _ _ _ _ _ D) in Hp as [_ Hp]. split; [intros ->; cbn in Hp; lia|lia]. }
  assert (∀ h p, <[t_hash tx := p0]> tm !! h = Some p → (h = t_hash tx ∧ p = p0) ∨ tm !! h = Some p) as HC.
  { intros h p Hp. apply lookup_insert_Some in Hp as [[<- <-]|[? ?]]; auto. }
  assert (¬ dropped f p0 ∧ ¬ packaged f p0) as [P1 P2].
  { split; intros X; apply (N.lt_irrefl nx), (d_flags _ _ _ _ _ _ D); [by left|by right]. }
  split.
  - intros h p Hp. apply HC in Hp as [[-> ->]|Hp]; [cbn; split; [done|lia]|]. apply (d_txmap _ _ _ _ _ _ D) in Hp as [? ?]. split; [done|lia].
  - intros h1 h2 p1 p2 H1 H2 E. apply HC in H1 as [[-> ->]|H1]; apply HC in H2 as [[-> ->]|H2]; try done.
    + exfalso. by apply HF in H2 as [_ []].
    + exfalso. by apply HF in H1 as [_ []].
    + by eapply (d_ids _ _ _ _ _ _ D).
  - intros p Hp. rewrite fmap_app in Hp. apply elem_of_app in Hp as [Hp|Hp].
    + destruct (d_co _ _ _ _ _ _ D p Hp) as (?&?&?). auto.
    + cbn in Hp. apply elem_of_list_singleton in Hp as ->. split; [by rewrite lookup_insert|done].
  - rewrite fmap_app. apply NoDup_app. split; [apply D|]. split; [|apply NoDup_singleton].
    intros p Hp Hp2. cbn in Hp2. apply elem_of_list_singleton in Hp2 as ->.
    apply (d_co _ _ _ _ _ _ D) in Hp as [Hp _]. by apply HF in Hp as [[] _].
  - intros p Hp. destruct (d_real _ _ _ _ _ _ D p Hp). auto.
  - apply D.
  - intros a q n p Hq Hp. destruct (d_pend _ _ _ _ _ _ D a q n p Hq Hp) as (X&?&?&?&?). repeat split; auto.
    rewrite fmap_app. intros [Y|Y]%elem_of_app; [done|]. cbn in Y. apply elem_of_list_singleton in Y as ->. by apply HF in X as [[] _].
  - intros h p Hp Hd. rewrite fmap_app. apply HC in Hp as [[-> ->]|Hp].
    + left. apply elem_of_app. right. cbn. by apply elem_of_list_singleton.
    + destruct (d_live _ _ _ _ _ _ D h p Hp Hd); [left; apply elem_of_app; by left|by right].
  - intros h p Hp Hd Hk. apply HC in Hp as [[-> ->]|Hp]; [done|]. by eapply D.
  - intros i Hi. apply (d_flags _ _ _ _ _ _ D) in Hi. lia.
  - apply D.
  - apply D.
Qed.
Lemma next_inv tm nx f pend real co : DInv tm nx f pend real co → DInv tm (nx + 1) f pend real co.
Proof.
  intros D. split; try apply D.
  - intros h p Hp. apply (d_txmap _ _ _ _ _ _ D) in Hp as [? ?]. split; [done|lia].
  - intros i Hi. apply (d_flags _ _ _ _ _ _ D) in Hi. lia.
Qed.

(** The shape of a successful insertion. *)
Lemma pool_insert_spec s tx lim d s' :
  Inv s → pool_insert capacity s tx lim d = Ok s' →
  (lim = true → p_stock s < capacity) ∧
  ∃ s2, (s2 = s ∨ flush_to_pending s = Ok s2) ∧ Inv s2 ∧ p_txmap s2 = p_txmap s ∧ N.of_nat (length (p_co s2)) < capacity ∧
    match p_txmap s !! t_hash tx with
    | Some _ => s' = Pool (p_next s2 + 1) (p_flags s2) (p_hash_data s2) (p_buckets s2) (p_pending s2)
                (p_co s2) (p_real s2) (p_txmap s2) (p_stock s2) (p_gap s2)
    | None => s' = Pool (p_next s2 + 1) (p_flags s2) (p_hash_data s2) (p_buckets s2) (p_pending s2)
                (p_co s2 ++ [(Ptr (p_next s2) tx, d)]) (p_real s2)
                (<[t_hash tx := Ptr (p_next s2) tx]> (p_txmap s2)) (p_stock s2 + 1) (p_gap s2)
    end.
Proof.
  intros I H. unfold pool_insert in H.
  destruct ((capacity <=? p_stock s) && lim) eqn:EL; [discriminate|].
  assert (lim = true → p_stock s < capacity) as HL.
  { intros ->. rewrite andb_true_r in EL. by apply N.leb_gt in EL. }
  split; [done|].
  set (s1 := Pool (p_next s) (p_flags s) (p_hash_data s) (p_buckets s) (p_pending s) (p_co s)
                 (p_real s) (p_txmap s) (p_stock s + 1) (p_gap s)) in H.
  change (p_co s1) with (p_co s) in H.
  destruct (negb lim && (capacity <=? N.of_nat (length (p_co s)))) eqn:EF.
  - (* drained first *)
    destruct (flush_to_pending s1) as [s2'| |] eqn:E2; try discriminate.
    assert (∃ s2, flush_to_pending s = Ok s2 ∧ s2' = Pool (p_next s2) (p_flags s2) (p_hash_data s2) (p_buckets s2) (p_pending s2) (p_co s2)
                 (p_real s2) (p_txmap s2) (p_stock s2 + 1) (p_gap s2)) as (s2 & Hs2 & ->).
    { unfold flush_to_pending in E2 |- *. cbn in E2.
      destruct (fold_left drain_one _ _) as [[[f pend] real]| |]; try discriminate. injection E2 as <-. eexists. split; [done|]. done. }
    pose proof (refresh_inv _ _ I Hs2) as I2.
    destruct (flush_to_pending_inv _ _ (i_d _ _ _ _ I) Hs2) as (D & E1 & E3 & E4 & E5 & E6 & E7 & E8).
    exists s2. split; [by right|]. split; [done|]. split; [done|]. split; [rewrite E1; cbn; lia|].
    cbn in H. rewrite E3 in H |- *. destruct (p_txmap s !! t_hash tx).
    + injection H as <-. f_equal. lia.
    + injection H as <-. f_equal. unfold co_push. rewrite E1. cbn [length].
      change (N.of_nat 0) with 0. by rewrite (proj2 (N.ltb_lt 0 capacity)).
  - assert (N.of_nat (length (p_co s)) < capacity) as HC.
    { destruct lim; cbn in EF; [|by apply N.leb_gt in EF].
      pose proof (length_co_le _ _ _ _ _ _ (i_d _ _ _ _ I)). pose proof (i_stock _ _ _ _ I). specialize (HL eq_refl). lia. }
    exists s. split; [by left|]. split; [done|]. split; [done|]. split; [done|].
    cbn in H. destruct (p_txmap s !! t_hash tx).
    + injection H as <-. f_equal. lia.
    + injection H as <-. f_equal. unfold co_push. by rewrite (proj2 (N.ltb_lt _ _)).
Qed.

Lemma insert_inv s tx lim d s' :
  Inv s → U (t_hash tx) = tx → SY (t_hash tx) = false → pool_insert capacity s tx lim d = Ok s' → Inv s'.
Proof.
  intros I HU HS H. apply pool_insert_spec in H as (_ & s2 & _ & I2 & ET & HC & H); [|done].
  rewrite <- ET in H. destruct (p_txmap s2 !! t_hash tx) as [p|] eqn:ETM; subst s'; split; cbn; try apply I2.
  - apply next_inv, I2.
  - by apply push_inv; [apply I2|].
  - rewrite app_length. cbn. lia.
  - rewrite map_size_insert_None by done. pose proof (i_stock _ _ _ _ I2). lia.
  - intros h p Hp. apply lookup_insert_Some in Hp as [[<- <-]|[_ Hp]]; [done|]. by apply I2.
Qed.

Lemma bucket_total_ge b d m : b !! d = Some m → N.of_nat (size m) <= sys_total b.
Proof. intros H. rewrite (sys_total_delete b d m H). lia. Qed.

Lemma insert_sys_inv s tx : Inv s → U (t_hash tx) = tx → SY (t_hash tx) = true → Inv (pool_insert_sys s tx).
Proof.
  intros I HU HS. unfold pool_insert_sys. split; cbn; try apply I.
  - pose proof (i_stock _ _ _ _ I) as Hst. destruct (p_buckets s !! t_data tx) as [b|] eqn:E; cbn.
    + pose proof (sys_total_replace (p_buckets s) (t_data tx) b (<[t_hash tx:=tx]> b) E) as HT.
      destruct (b !! t_hash tx) eqn:Eb.
      * rewrite map_size_insert_Some in HT by done. lia.
      * rewrite map_size_insert_None in HT by done. lia.
    + rewrite lookup_empty. rewrite sys_total_insert by done. rewrite map_size_insert_None by apply lookup_empty.
      rewrite map_size_empty. lia.
  - intros d m Hm. apply lookup_insert_Some in Hm as [[<- <-]|[Hd Hm]].
    + split; [apply insert_non_empty|]. intros h tx' Hh. apply lookup_insert_Some in Hh as [[<- <-]|[Hne Hh]].
      * rewrite lookup_insert. done.
      * rewrite lookup_insert_ne by done. destruct (p_buckets s !! t_data tx) as [b|] eqn:E; cbn in Hh; [|by rewrite lookup_empty in Hh].
        by apply (i_bk _ _ _ _ I) in E as [_ E]; apply E.
    + destruct (i_bk _ _ _ _ I d m Hm) as [X Y]. split; [done|]. intros h tx' Hh.
      destruct (Y h tx' Hh) as (A1 & A2 & A3 & A4 & A5). repeat split; auto.
      rewrite lookup_insert_ne; [done|]. intros Eh. rewrite Eh in HU. congruence.
Qed.

Lemma sort_inv tm nx f pend real real' co : real' ≡ₚ real → DInv tm nx f pend real co → DInv tm nx f pend real' co.
Proof.
  intros HP D. split; try apply D.
  - intros p Hp. rewrite HP in Hp. by eapply D.
  - rewrite HP. apply D.
  - intros h p H1 H2 H3. rewrite HP. by eapply D.
Qed.

Lemma package_inv s g l s' out : Inv s → pool_package sort s g l = Ok (s', out) → Inv s'.
Proof.
  intros I H. unfold pool_package in H. destruct (sys_package_ok s); [|discriminate].
  assert (∃ s1, (if bool_decide (p_co s = []) then Ok s else flush_to_pending s) = Ok s1 ∧ Inv s1) as (s1 & E & I1).
  { destruct (bool_decide (p_co s = [])); [eauto|]. destruct (flush_to_pending s) eqn:E; try discriminate. exists a. split; [done|]. by eapply refresh_inv. }
  rewrite E in H. injection H as <- <-. split; cbn; try apply I1. eapply sort_inv; [apply sort_perm|]. apply I1.
Qed.

(** The system bucket part of a flush. *)
Lemma sys_flush_spec hs hd b r hd' b' r' :
  bucket_ok U SY hd b → fold_left sys_flush_one hs (hd, b, r) = (hd', b', r') →
  bucket_ok U SY hd' b' ∧ sys_total b' + r' <= sys_total b + r ∧
  (∀ d m, b' !! d = Some m → b !! d = Some m) ∧
  (∀ h, h ∈ hs → hd' !! h = None) ∧ (∀ h d, hd' !! h = Some d → hd !! h = Some d) ∧
  (∀ d m, b !! d = Some m → b' !! d = None → ∃ h, h ∈ hs ∧ hd !! h = Some d).
Proof using U SY.
  clear sort_perm cap_pos sort capacity timeout_config.
  intros HB. revert hd' b' r'. induction hs as [|h hs IH] using rev_ind; intros hd' b' r'.
  - cbn. intros [= <- <- <-]. split; [done|]. split; [lia|]. split; [done|]. split; [intros h Hh; by apply not_elem_of_nil in Hh|].
    split; [done|]. intros d m H1 H2. congruence.
  - rewrite fold_left_app. cbn [fold_left]. destruct (fold_left sys_flush_one hs (hd, b, r)) as [[hd0 b0] r0] eqn:E0.
    destruct (IH _ _ _ eq_refl) as (B0 & T0 & S0 & N0 & K0 & W0). unfold sys_flush_one.
    destruct (hd0 !! h) as [d|] eqn:Eh.
    + intros [= <- <- <-]. split; [|split; [|split; [|split; [|split]]]].
      * intros d' m Hm. apply lookup_delete_Some in Hm as [Hd Hm]. destruct (B0 d' m Hm) as [X Y]. split; [done|].
        intros h' tx' Hh'. destruct (Y h' tx' Hh') as (?&?&?&?&?). repeat split; auto.
        rewrite lookup_delete_ne; [done|]. intros ->. congruence.
      * destruct (b0 !! d) as [m|] eqn:Em.
        -- rewrite (sys_total_delete b0 d m Em) in T0. destruct (B0 d m Em) as [X _]. pose proof (size_nonempty m X). lia.
        -- rewrite delete_notin by done. lia.
      * intros d' m Hm. apply lookup_delete_Some in Hm as [_ Hm]. auto.
      * intros h' [Hh|Hh%elem_of_list_singleton]%elem_of_app.
        -- destruct (decide (h' = h)) as [->|]; [apply lookup_delete|]. rewrite lookup_delete_ne by done. auto.
        -- subst. apply lookup_delete.
      * intros h' d' Hd'. apply lookup_delete_Some in Hd' as [_ Hd']. auto.
      * intros d' m Hm Hn. destruct (decide (d' = d)) as [->|].
        -- exists h. split; [set_solver|]. auto.
        -- rewrite lookup_delete_ne in Hn by done. destruct (W0 d' m Hm Hn) as (h' & ? & ?). exists h'. split; [set_solver|done].
    + intros [= <- <- <-]. split; [done|]. split; [done|]. split; [done|]. split; [|split; [done|]].
      * intros h' [Hh|Hh%elem_of_list_singleton]%elem_of_app; [auto|]. by subst.
      * intros d' m Hm Hn. destruct (W0 d' m Hm Hn) as (h' & ? & ?). exists h'. split; [set_solver|done].
Qed.

Lemma pool_flush_spec s hs n s' :
  Inv s → pool_flush timeout_config s hs n = Ok s' →
  ∃ s1 s2 r hd b r2, flush_to_pending s = Ok s1 ∧ Inv s1 ∧ p_co s1 = [] ∧
    flush_inner timeout_config s1 hs n = Ok (s2, r) ∧
    fold_left sys_flush_one hs (p_hash_data s2, p_buckets s2, r) = (hd, b, r2) ∧
    s' = Pool (p_next s2) (p_flags s2) hd b (p_pending s2) (p_co s2) (p_real s2) (p_txmap s2)
                (wrapping_sub (p_stock s2) r2) (p_gap s2).
Proof.
  intros I H. unfold pool_flush in H. destruct (flush_to_pending s) as [s1| |] eqn:E1; try discriminate.
  destruct (flush_inner timeout_config s1 hs n) as [[s2 r]| |] eqn:E2; try discriminate.
  destruct (fold_left sys_flush_one hs _) as [[hd b] r2] eqn:E3. injection H as <-.
  destruct (flush_to_pending_inv _ _ (i_d _ _ _ _ I) E1) as (_ & E & _).
  exists s1, s2, r, hd, b, r2. split; [done|]. split; [by eapply refresh_inv|]. done.
Qed.

Lemma flush_inv s hs n s' : Inv s → pool_flush timeout_config s hs n = Ok s' → Inv s'.
Proof.
  intros I H. apply pool_flush_spec in H as (s1 & s2 & r & hd & b & r2 & E1 & I1 & C1 & E2 & E3 & ->); [|done].
  pose proof (i_d _ _ _ _ I1) as D1. rewrite C1 in D1.
  destruct (flush_inner_spec _ _ _ _ _ _ D1 C1 E2) as (D2 & C2 & N2 & H2 & B2 & S2 & R2 & _ & T2 & _).
  apply sys_flush_spec in E3 as (B3 & T3 & _); [|rewrite H2, B2; apply I1].
  pose proof (i_stock _ _ _ _ I1) as Hst. rewrite B2 in T3.
  split; cbn.
  - by rewrite C2.
  - rewrite C2. cbn. lia.
  - unfold wrapping_sub. rewrite S2. destruct (r2 <=? p_stock s1) eqn:El; [apply N.leb_le in El; lia|apply N.leb_gt in El; lia].
  - intros h p Hp. apply T2 in Hp as [Hp _]. by apply I1.
  - done.
Qed.

Lemma step_inv s o s' : Inv s → op_ok U SY o → step capacity timeout_config sort s o = Ok s' → Inv s'.
Proof.
  intros I HO H. destruct o as [tx lim d|tx|g l|hs n|]; cbn in H, HO.
  - destruct (pool_insert capacity s tx lim d) as [s1| |] eqn:E; try discriminate; injection H as <-; [|done].
    destruct HO. by eapply insert_inv.
  - injection H as <-. destruct HO. by apply insert_sys_inv.
  - destruct (pool_package sort s g l) as [[s1 out]| |] eqn:E; try discriminate; injection H as <-; [|done].
    by eapply package_inv.
  - by eapply flush_inv.
  - by eapply refresh_inv.
Qed.

Lemma run_inv ops s s' : Inv s → Forall (op_ok U SY) ops → run capacity timeout_config sort s ops = Ok s' → Inv s'.
Proof.
  revert s. induction ops as [|o ops IH]; intros s I HO H; cbn in H; [by injection H as <-|].
  apply Forall_cons in HO as [HO HOs]. destruct (step _ _ _ s o) as [s1| |] eqn:E; try discriminate.
  apply (IH s1); auto. by eapply step_inv.
Qed.
End PoolInv.
