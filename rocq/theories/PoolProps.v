(** Properties of the transaction pool: C10-C16 and C19. *)
From Verif Require Import TxModel PoolModel PoolProofs PoolProofs2 PoolProofs3 PoolProofs4 PoolProofs5.

(* ---------------------------------------------------------------- *)
(** * Vocabulary *)

(** States a pool of the given capacity and time-out can be in. *)
Definition reachable (capacity timeout_config : N) (sort : list ptr → list ptr) (ops : list op) (s : pool) : Prop :=
  0 < capacity ∧ (∀ l, sort l ≡ₚ l) ∧ consistent ops ∧ run capacity timeout_config sort pool_new ops = Ok s.

(** The hashes of user (non-system) transactions the pool holds, and of system transactions. *)
Definition user_hashes (s : pool) : gset N := dom (p_txmap s).
Definition sys_hashes (s : pool) : gset N :=
  filter (λ h, bool_decide (is_Some (sys_get s h)) = true) (dom (p_hash_data s)).
Definition all_hashes (s : pool) : gset N := user_hashes s ∪ sys_hashes s.

Lemma sys_hashes_spec s h : h ∈ sys_hashes s ↔ is_Some (sys_get s h).
Proof.
  unfold sys_hashes. rewrite elem_of_filter, bool_decide_eq_true, elem_of_dom. unfold sys_get.
  destruct (p_hash_data s !! h) as [d|]; [intuition eauto|]. split; intros H; [|by destruct H].
  destruct H as [[? ?] _]. done.
Qed.
(** The sets are what [contains] answers. *)
Lemma all_hashes_contains s h : h ∈ all_hashes s ↔ pool_contains s h = true.
Proof.
  unfold all_hashes, user_hashes, pool_contains. rewrite elem_of_union, elem_of_dom, sys_hashes_spec.
  assert (∀ A, is_Some (@None A) ↔ False) as HN by (intros A; split; [by intros [? [=]]|done]).
  destruct (p_txmap s !! h); [intuition eauto|]. unfold sys_contains, sys_get. rewrite HN.
  destruct (p_hash_data s !! h) as [d|]; [|rewrite HN; intuition discriminate].
  destruct (p_buckets s !! d) as [b|]; [|rewrite HN; intuition discriminate].
  destruct (b !! h); [intuition eauto|rewrite HN; intuition discriminate].
Qed.

(** Examples use capacity 100, time-out 20 and the real sort. *)
Definition T (h sender nonce price : N) : ptx := Ptx h sender nonce price 21000 [].
Definition Sy (h : N) (data : list N) : ptx := Ptx h 9 0 1 21000 data.
Definition go (ops : list op) : outcome pool := run 100 20 isort pool_new ops.

Lemma ins_rev_perm x l : ins_rev x l ≡ₚ x :: l.
Proof. induction l as [|y l IH]; cbn; [done|]. destruct (tx_lt x y); [|done]. rewrite IH. constructor. Qed.
Lemma isort_perm l : isort l ≡ₚ l.
Proof.
  unfold isort. assert (∀ acc, fold_left (λ acc x, ins_rev x acc) l acc ≡ₚ l ++ acc) as H.
  { induction l as [|x l IH]; intros acc; cbn; [done|]. rewrite IH, ins_rev_perm. by rewrite Permutation_middle. }
  rewrite <- (rev_involutive (A:=ptr) l) at 2. rewrite <- !Permutation_rev. rewrite H. by rewrite app_nil_r.
Qed.

(** Decides [consistent] for concrete histories: every hash occurs with one transaction and one kind. *)
Definition op_tx (o : op) : option (ptx * bool) :=
  match o with OInsert tx _ _ => Some (tx, false) | OInsertSys tx => Some (tx, true) | _ => None end.
Definition dir (ops : list op) : gmap N (ptx * bool) :=
  list_to_map ((λ p : ptx * bool, (t_hash p.1, p)) <$> omap op_tx ops).
Definition consistentb (ops : list op) : bool :=
  forallb (λ o, match op_tx o with
                | Some p => bool_decide (dir ops !! t_hash p.1 = Some p)
                | None => true end) ops.
Lemma consistentb_ok ops : consistentb ops = true → consistent ops.
Proof.
  intros H. exists (λ h, (default (T 0 0 0 0, false) (dir ops !! h)).1), (λ h, (default (T 0 0 0 0, false) (dir ops !! h)).2).
  apply Forall_forall. intros o Ho. unfold consistentb in H. rewrite forallb_forall in H.
  specialize (H o (proj1 (elem_of_list_In _ _) Ho)).
  destruct o as [tx l d|tx|g l|hs n|]; cbn in *; try done; apply bool_decide_eq_true in H; by rewrite H.
Qed.
Lemma go_reachable ops s : consistentb ops = true → go ops = Ok s → reachable 100 20 isort ops s.
Proof. intros. split; [done|]. split; [apply isort_perm|]. split; [by apply consistentb_ok|done]. Qed.

Lemma reachable_inv c t srt ops s : reachable c t srt ops s → ∃ U SY, Forall (op_ok U SY) ops ∧ Inv c U SY s.
Proof.
  intros (HC & HS & (U & SY & HO) & HR). exists U, SY. split; [done|]. eapply run_inv; eauto. by apply inv_new.
Qed.

(* ---------------------------------------------------------------- *)
(** * C10 *)

(** Insertions that bypass the limit. *)
Definition pulled (o : op) : bool := match o with OInsert _ false _ => true | _ => false end.
Definition pulls (ops : list op) : N := N.of_nat (length (filter (λ o, pulled o = true) ops)).

Lemma step_size c t srt U SY s o s' : 0 < c → (∀ l, srt l ≡ₚ l) → Inv c U SY s → op_ok U SY o → step c t srt s o = Ok s' →
  (size (p_txmap s') ≤ size (p_txmap s))%nat ∨
  (size (p_txmap s') = S (size (p_txmap s)) ∧ (pulled o = true ∨ N.of_nat (size (p_txmap s)) < c)).
Proof.
  intros HC HS I HO H. destruct o as [tx lim d|tx|g l|hs n|]; cbn in H, HO.
  - destruct (pool_insert c s tx lim d) as [s1| |] eqn:E; try discriminate; injection H as <-; [|left; done].
    apply (pool_insert_spec c U SY) in E as (HL & s2 & Hs2 & I2 & ET & _ & E); [|done|done].
    destruct (p_txmap s !! t_hash tx) eqn:EX; subst s1; cbn; rewrite ET.
    + by left.
    + right. rewrite map_size_insert_None by done. split; [done|]. cbn. destruct lim; [right|by left].
      specialize (HL eq_refl). pose proof (i_stock _ _ _ _ I). lia.
  - injection H as <-. by left.
  - destruct (pool_package srt s g l) as [[s1 out]| |] eqn:E; try discriminate; injection H as <-; [|by left].
    unfold pool_package in E. destruct (sys_package_ok s); [|discriminate].
    destruct (bool_decide (p_co s = [])); [injection E as <- <-; by left|].
    destruct (flush_to_pending s) as [s2| |] eqn:E2; try discriminate. injection E as <- <-.
    destruct (flush_to_pending_inv _ _ (i_d _ _ _ _ I) E2) as (_ & _ & ET & _). cbn. rewrite ET. by left.
  - left. apply (pool_flush_spec c t U SY) in H as (s1 & s2 & r & hd & b & r2 & E1 & I1 & C1 & E2 & E3 & ->); [|done|done].
    pose proof (i_d _ _ _ _ I1) as D1. rewrite C1 in D1.
    destruct (flush_inner_spec _ _ _ _ _ _ D1 C1 E2) as (_ & _ & _ & _ & _ & _ & R2 & _).
    destruct (flush_to_pending_inv _ _ (i_d _ _ _ _ I) E1) as (_ & _ & ET & _). cbn. rewrite ET in R2. lia.
  - destruct (flush_to_pending_inv _ _ (i_d _ _ _ _ I) H) as (_ & _ & ET & _). rewrite ET. by left.
Qed.

Lemma run_size c t srt U SY ops : 0 < c → (∀ l, srt l ≡ₚ l) → Forall (op_ok U SY) ops →
  ∀ s0 s k, Inv c U SY s0 → N.of_nat (size (p_txmap s0)) <= c + k → run c t srt s0 ops = Ok s →
  N.of_nat (size (p_txmap s)) <= c + k + pulls ops.
Proof.
  intros HC HS HO. induction ops as [|o ops IH]; intros s0 s k I0 Hk HR; cbn in HR.
  { injection HR as <-. lia. }
  apply Forall_cons in HO as [HO HOs]. destruct (step c t srt s0 o) as [s1| |] eqn:E; try discriminate.
  assert (Inv c U SY s1) as I1 by (by eapply step_inv).
  assert (pulls (o :: ops) = (if pulled o then 1 else 0) + pulls ops) as Hp.
  { unfold pulls. rewrite filter_cons. destruct (pulled o); [rewrite decide_True by done|rewrite decide_False by done]; cbn [length]; lia. }
  destruct (step_size _ _ _ _ _ _ _ _ HC HS I0 HO E) as [Hl|[Hl [Hp2|Hl2]]].
  - specialize (IH HOs s1 s k I1 ltac:(lia) HR). lia.
  - rewrite Hp2 in Hp. specialize (IH HOs s1 s (k + 1) I1 ltac:(lia) HR). lia.
  - specialize (IH HOs s1 s k I1 ltac:(lia) HR). lia.
Qed.

(** The number of user transactions never exceeds the capacity, except for those brought in by
    insertions that bypass the limit. *)
Theorem C10_capacity c t srt ops s : reachable c t srt ops s →
  N.of_nat (size (user_hashes s)) <= c + pulls ops.
Proof.
  intros (HC & HS & (U & SY & HO) & HR). unfold user_hashes. rewrite size_dom.
  pose proof (run_size c t srt U SY ops HC HS HO pool_new s 0 (inv_new c U SY) ltac:(cbn [p_txmap pool_new]; rewrite map_size_empty; lia) HR). lia.
Qed.

(** The number of system transactions held. *)
Lemma sys_total_hashes U SY hd b : bucket_ok U SY hd b →
  ∃ S : gset N, N.of_nat (size S) = sys_total b ∧ ∀ h, h ∈ S ↔ ∃ d m, b !! d = Some m ∧ h ∈ dom m.
Proof.
  induction b as [|d m b Hd IH] using map_ind; intros HB.
  - exists ∅. rewrite sys_total_empty. split; [done|]. intros h. split; [set_solver|]. intros (d & m & H & _). by rewrite lookup_empty in H.
  - destruct IH as (S & HS & HE).
    { intros d' m' Hm'. apply HB. rewrite lookup_insert_ne; [done|]. congruence. }
    assert (∀ h, h ∈ dom m → h ∈ S → False) as Hdis.
    { intros h H1 H2. apply HE in H2 as (d' & m' & Hm' & H2). apply elem_of_dom in H1 as [x Hx]. apply elem_of_dom in H2 as [y Hy].
      destruct (HB d m) as [_ X]; [by rewrite lookup_insert|]. destruct (HB d' m') as [_ Y]; [rewrite lookup_insert_ne; [done|congruence]|].
      destruct (X h x Hx) as (_ & _ & _ & Xh & _). destruct (Y h y Hy) as (_ & _ & _ & Yh & _). congruence. }
    exists (dom m ∪ S). split.
    + rewrite size_union by set_solver. rewrite size_dom, sys_total_insert by done. lia.
    + intros h. rewrite elem_of_union, HE. split.
      * intros [H|(d' & m' & Hm' & H)]; [exists d, m; by rewrite lookup_insert|].
        exists d', m'. rewrite lookup_insert_ne; [done|congruence].
      * intros (d' & m' & Hm' & H). apply lookup_insert_Some in Hm' as [[<- <-]|[_ Hm']]; [by left|right; eauto].
Qed.
Lemma size_sys_hashes c U SY s : Inv c U SY s → N.of_nat (size (sys_hashes s)) = sys_total (p_buckets s).
Proof.
  intros I. destruct (sys_total_hashes U SY _ _ (i_bk _ _ _ _ I)) as (S & <- & HE). do 2 f_equal. apply set_eq. intros h.
  rewrite sys_hashes_spec, HE. unfold sys_get. split.
  - intros [tx H]. destruct (p_hash_data s !! h) as [d|]; [|done]. destruct (p_buckets s !! d) as [m|] eqn:E; [|done].
    exists d, m. split; [done|]. apply elem_of_dom. eauto.
  - intros (d & m & Hm & [tx Hh]%elem_of_dom). destruct (i_bk _ _ _ _ I d m Hm) as [_ X].
    destruct (X h tx Hh) as (_ & _ & _ & -> & _). rewrite Hm. eauto.
Qed.
(** User and system hashes never overlap, so the number of transactions held is the sum. *)
Lemma size_all_hashes c U SY s : Inv c U SY s →
  N.of_nat (size (all_hashes s)) = N.of_nat (size (p_txmap s)) + sys_total (p_buckets s).
Proof.
  intros I. unfold all_hashes. rewrite size_union.
  - unfold user_hashes. rewrite size_dom, <- (size_sys_hashes c U SY s I). lia.
  - intros h H1 H2. unfold user_hashes in H1. apply elem_of_dom in H1 as [p Hp]. apply sys_hashes_spec in H2 as [tx Ht]. unfold sys_get in Ht.
    destruct (p_hash_data s !! h) as [d|]; [|done]. destruct (p_buckets s !! d) as [m|] eqn:E; [|done].
    destruct (i_bk _ _ _ _ I d m E) as [_ X]. destruct (X h tx Ht) as (_ & _ & _ & _ & HS).
    destruct (i_tm _ _ _ _ I h p Hp) as [_ HS2]. congruence.
Qed.

(** A limited insertion into a pool that holds [capacity] or more transactions is rejected and
    changes nothing, whatever the transaction. *)
Theorem C10_full_rejects c t srt ops s tx d : reachable c t srt ops s →
  c <= N.of_nat (size (all_hashes s)) →
  pool_insert c s tx true d = Err ∧ step c t srt s (OInsert tx true d) = Ok s.
Proof.
  intros R HF. destruct (reachable_inv _ _ _ _ _ R) as (U & SY & _ & I).
  assert (c <= p_stock s) as Hs.
  { pose proof (i_stock _ _ _ _ I). rewrite (size_all_hashes c U SY s I) in HF. lia. }
  unfold step, pool_insert. rewrite (proj2 (N.leb_le _ _) Hs). done.
Qed.
(** A limited insertion is accepted while the reported length is below the capacity. *)
Theorem C10_accepts_below c s tx d : pool_len s < c → ∃ s', pool_insert c s tx true d = Ok s' ∧
  pool_contains s' (t_hash tx) = true.
Proof.
  intros HF. unfold pool_insert. unfold pool_len in HF. rewrite (proj2 (N.leb_gt _ _)) by done. cbn.
  destruct (p_txmap s !! t_hash tx) eqn:E; eexists; (split; [reflexivity|]); unfold pool_contains; cbn.
  - by rewrite E.
  - by rewrite lookup_insert.
Qed.

(** Filling a pool of capacity 2 by limited insertions, then pulling a third. *)
Example C10_example :
  let ops := [OInsert (T 1 7 0 5) true 0; OInsert (T 2 7 1 5) true 0; OInsert (T 3 8 0 5) true 0; OInsert (T 4 8 0 5) false 0] in
  ∃ s, run 2 20 isort pool_new ops = Ok s ∧ consistentb ops = true ∧ size (user_hashes s) = 3%nat ∧ pulls ops = 1 ∧
    pool_contains s 3 = false ∧ pool_contains s 4 = true ∧ pool_insert 2 s (T 5 1 1 1) true 0 = Err.
Proof. cbn zeta. eexists. split; [vm_compute; reflexivity|]. vm_compute. repeat split; reflexivity. Qed.

(* ---------------------------------------------------------------- *)
(** * C11 *)

(** The claim: the reported length is the number of transactions held. *)
Definition length_exact (s : pool) : Prop := pool_len s = N.of_nat (size (all_hashes s)).

(** Two system transactions with the same call data share a bucket; flushing one of them empties the
    bucket but lowers the counter by one only. *)
Theorem C11_length_exact_refuted : ∃ ops s, reachable 100 20 isort ops s ∧ ¬ length_exact s ∧
  pool_len s = 1 ∧ all_hashes s = ∅.
Proof.
  exists [OInsertSys (Sy 1 [5]); OInsertSys (Sy 2 [5]); OFlush [1] 1]. eexists. split.
  { apply go_reachable; vm_compute; reflexivity. }
  split; [|split; [reflexivity|apply (bool_decide_unpack _); vm_compute; exact I]].
  unfold length_exact. vm_compute. discriminate.
Qed.

(** The counter never understates the content ... *)
Theorem C11_length_at_least_partial c t srt ops s : reachable c t srt ops s →
  N.of_nat (size (all_hashes s)) <= pool_len s.
Proof.
  intros R. destruct (reachable_inv _ _ _ _ _ R) as (U & SY & _ & I). rewrite (size_all_hashes c U SY s I). apply I.
Qed.

Definition no_system (ops : list op) : Prop := Forall (λ o, match o with OInsertSys _ => False | _ => True end) ops.
Lemma step_exact c t srt U SY s o s' : 0 < c → (∀ l, srt l ≡ₚ l) → Inv c U SY s → op_ok U SY o →
  match o with OInsertSys _ => False | _ => True end → step c t srt s o = Ok s' →
  (p_hash_data s = ∅ ∧ p_buckets s = ∅ ∧ p_stock s = N.of_nat (size (p_txmap s))) →
  (p_hash_data s' = ∅ ∧ p_buckets s' = ∅ ∧ p_stock s' = N.of_nat (size (p_txmap s'))).
Proof.
  intros HC HS I HO HN H (A1 & A2 & A3). destruct o as [tx lim d|tx|g l|hs n|]; cbn in H, HO; [| |..|]; try done.
  - destruct (pool_insert c s tx lim d) as [s1| |] eqn:E; try discriminate; injection H as <-; [|done].
    apply (pool_insert_spec c U SY) in E as (HL & s2 & Hs2 & I2 & ET & _ & E); [|done|done].
    assert (p_hash_data s2 = ∅ ∧ p_buckets s2 = ∅ ∧ p_stock s2 = N.of_nat (size (p_txmap s2))) as (B1 & B2 & B3).
    { destruct Hs2 as [->|Hs2]; [done|].
      destruct (flush_to_pending_inv _ _ (i_d _ _ _ _ I) Hs2) as (_ & _ & ET' & _ & EH & EB & ES & _).
      by rewrite ET', EH, EB, ES. }
    destruct (p_txmap s !! t_hash tx) eqn:EX; subst s1; cbn; auto.
    rewrite map_size_insert_None by congruence. rewrite B3. repeat split; auto. lia.
  - destruct (pool_package srt s g l) as [[s1 out]| |] eqn:E; try discriminate; injection H as <-; [|done].
    unfold pool_package in E. destruct (sys_package_ok s); [|discriminate].
    destruct (bool_decide (p_co s = [])); [injection E as <- <-; done|].
    destruct (flush_to_pending s) as [s2| |] eqn:E2; try discriminate. injection E as <- <-.
    destruct (flush_to_pending_inv _ _ (i_d _ _ _ _ I) E2) as (_ & _ & ET' & _ & EH & EB & ES & _).
    cbn. by rewrite ET', EH, EB, ES.
  - apply (pool_flush_spec c t U SY) in H as (s1 & s2 & r & hd & b & r2 & E1 & I1 & C1 & E2 & E3 & ->); [|done|done].
    pose proof (i_d _ _ _ _ I1) as D1. rewrite C1 in D1.
    destruct (flush_inner_spec _ _ _ _ _ _ D1 C1 E2) as (_ & _ & _ & H2 & B2 & S2 & R2 & _).
    destruct (flush_to_pending_inv _ _ (i_d _ _ _ _ I) E1) as (_ & _ & ET' & _ & EH & EB & ES & _).
    assert (∀ hs, fold_left sys_flush_one hs (∅, ∅, r) = (∅, ∅, r)) as HF.
    { intros hs'. induction hs' as [|h hs' IH]; [done|]. cbn [fold_left]. unfold sys_flush_one at 2. by rewrite lookup_empty. }
    rewrite H2, B2, EH, EB, A1, A2, HF in E3. injection E3 as <- <- <-. cbn.
    split; [done|]. split; [done|]. unfold wrapping_sub. rewrite S2, ES, A3. rewrite ET' in R2.
    destruct (r <=? N.of_nat (size (p_txmap s))) eqn:El; [lia|apply N.leb_gt in El; lia].
  - destruct (flush_to_pending_inv _ _ (i_d _ _ _ _ I) H) as (_ & _ & ET' & _ & EH & EB & ES & _).
    by rewrite ET', EH, EB, ES.
Qed.
(** ... and is exact in every history without system transactions. *)
Theorem C11_length_exact_partial c t srt ops s : reachable c t srt ops s → no_system ops → length_exact s.
Proof.
  intros (HC & HS & (U & SY & HO) & HR) HN.
  assert (Inv c U SY s) as I by (eapply run_inv; eauto; apply inv_new).
  assert (∀ s0, Inv c U SY s0 → run c t srt s0 ops = Ok s →
    (p_hash_data s0 = ∅ ∧ p_buckets s0 = ∅ ∧ p_stock s0 = N.of_nat (size (p_txmap s0))) →
    (p_hash_data s = ∅ ∧ p_buckets s = ∅ ∧ p_stock s = N.of_nat (size (p_txmap s)))) as G.
  { clear HR I. induction ops as [|o ops IH]; intros s0 I0 HR H0; cbn in HR; [by injection HR as <-|].
    apply Forall_cons in HO as [HO HOs]. apply Forall_cons in HN as [HN HNs].
    destruct (step c t srt s0 o) as [s1| |] eqn:E; try discriminate.
    apply (IH HOs HNs s1); [by eapply step_inv|done|]. exact (step_exact c t srt U SY s0 o s1 HC HS I0 HO HN E H0). }
  destruct (G pool_new (inv_new c U SY) HR) as (_ & B & E); [done|].
  unfold length_exact, pool_len. rewrite (size_all_hashes c U SY s I), B, sys_total_empty, E. lia.
Qed.

Example C11_example :
  let ops := [OInsert (T 1 7 0 5) true 0; OInsert (T 2 7 1 5) true 0; OInsert (T 1 7 0 5) true 0; OPackage 0 10; OFlush [1] 1] in
  ∃ s, go ops = Ok s ∧ consistentb ops = true ∧ no_system ops ∧ pool_len s = 1.
Proof. cbn zeta. eexists. split; [vm_compute; reflexivity|]. repeat split; try reflexivity. repeat constructor. Qed.

(* ---------------------------------------------------------------- *)
(** * C12 *)

(** Every accepted insertion leaves its hash in the pool, holding that transaction, and a hash that
    was not yet there becomes a live pool entry: the queue of fresh transactions never rejects it. *)
Theorem C12_accepted_is_live c t srt ops s tx lim d s' :
  reachable c t srt (ops ++ [OInsert tx lim d]) s' → run c t srt pool_new ops = Ok s → pool_insert c s tx lim d = Ok s' →
  pool_get s' (t_hash tx) = Some tx ∧
  (pool_contains s (t_hash tx) = false → ∃ p, pt_tx p = tx ∧ live s' p ∧ (p, d) ∈ p_co s').
Proof.
  intros (HC & HS & (U & SY & HO) & HR) H1 H2. apply Forall_app in HO as [HO HO2].
  assert (Inv c U SY s) as I by exact (run_inv c t srt U SY HS HC ops _ _ (inv_new c U SY) HO H1).
  apply Forall_cons in HO2 as [[HU HSY] _].
  assert (Inv c U SY s') as I' by (exact (insert_inv c srt U SY HS HC s tx lim d s' I HU HSY H2)).
  apply (pool_insert_spec c U SY) in H2 as (HL & s2 & Hs2 & I2 & ET & _ & E); [|done|done].
  destruct (p_txmap s !! t_hash tx) as [p|] eqn:EX.
  - split.
    + subst s'. unfold pool_get. cbn. rewrite ET, EX. f_equal. destruct (i_tm _ _ _ _ I _ _ EX) as [X _]. congruence.
    + unfold pool_contains. rewrite EX. done.
  - split.
    + subst s'. unfold pool_get. cbn. by rewrite lookup_insert.
    + intros _. exists (Ptr (p_next s2) tx). split; [done|].
      assert ((Ptr (p_next s2) tx, d) ∈ p_co s') as Hin by (subst s'; cbn; set_solver).
      split; [|done]. destruct (d_co _ _ _ _ _ _ (i_d _ _ _ _ I') (Ptr (p_next s2) tx)) as (X1 & X2 & _).
      { apply elem_of_list_fmap. by exists (Ptr (p_next s2) tx, d). }
      split; done.
Qed.

(** A live transaction stays live, hence retrievable, under every operation, unless the operation has
    one of the documented reasons to remove it. *)
Theorem C12_never_lost c t srt ops1 ops2 s1 s2 p :
  reachable c t srt (ops1 ++ ops2) s2 → run c t srt pool_new ops1 = Ok s1 → live s1 p →
  (live s2 p ∧ pool_get s2 (phash p) = Some (pt_tx p)) ∨
  ∃ pre o post s, ops2 = pre ++ o :: post ∧ run c t srt pool_new (ops1 ++ pre) = Ok s ∧ live s p ∧ excuse t s p o.
Proof.
  intros (HC & HS & (U & SY & HO) & HR) H1 HL.
  assert (live s2 p → pool_get s2 (phash p) = Some (pt_tx p)) as HG.
  { intros [X _]. unfold pool_get. by rewrite X. }
  cut (live s2 p ∨ ∃ pre o post s, ops2 = pre ++ o :: post ∧ run c t srt pool_new (ops1 ++ pre) = Ok s ∧ live s p ∧ excuse t s p o).
  { intros [X|X]; [left; auto|by right]. }
  clear HG. revert ops1 s1 HO HR H1 HL. induction ops2 as [|o ops2 IH]; intros ops1 s1 HO HR H1 HL.
  - left. rewrite app_nil_r in HR. congruence.
  - assert (Inv c U SY s1) as I1.
    { apply Forall_app in HO as [HO1 _]. exact (run_inv c t srt U SY HS HC ops1 _ _ (inv_new c U SY) HO1 H1). }
    apply Forall_app in HO as HO'. destruct HO' as [HO1 HO2]. apply Forall_cons in HO2 as [HOo HO2].
    rewrite run_app, H1 in HR. cbn in HR. destruct (step c t srt s1 o) as [s'| |] eqn:E; try discriminate.
    destruct (step_live c t srt U SY HS HC s1 o s' p I1 HOo E HL) as [HL'|HX].
    + destruct (IH (ops1 ++ [o]) s') as [?|(pre & o' & post & s & -> & Hs & X & Y)].
      * rewrite <- app_assoc. done.
      * rewrite <- app_assoc. cbn. rewrite run_app, H1. cbn. by rewrite E.
      * rewrite run_app, H1. cbn. by rewrite E.
      * done.
      * by left.
      * right. exists (o :: pre), o', post, s. rewrite <- app_assoc in Hs. done.
    + right. exists [], o, ops2, s1. rewrite app_nil_r. done.
Qed.

(** The time-out reason is about age: the record for block [k] lists transactions that were in the pool right
    after block [k] was flushed. *)
Definition recorded_by (c t : N) (srt : list ptr → list ptr) (ops : list op) (k h : N) : Prop :=
  ∃ pre hs post s, ops = pre ++ OFlush hs k :: post ∧ run c t srt pool_new (pre ++ [OFlush hs k]) = Ok s ∧ pool_contains s h = true.
Lemma step_gap c t srt U SY s o s' k S h : 0 < c → Inv c U SY s → step c t srt s o = Ok s' →
  p_gap s' !! k = Some S → h ∈ S →
  (∃ S0, p_gap s !! k = Some S0 ∧ h ∈ S0) ∨ (∃ hs, o = OFlush hs k ∧ is_Some (p_txmap s' !! h)).
Proof.
  intros HC I H HS Hh. destruct o as [tx lim d|tx|g l|hs n|]; cbn in H.
  - destruct (pool_insert c s tx lim d) as [s1| |] eqn:E; try discriminate; injection H as <-; [|eauto].
    apply (pool_insert_spec c U SY) in E as (HL & s2 & Hs2 & I2 & ET & _ & E); [|done|done]. left. exists S. split; [|done].
    destruct Hs2 as [->|Hs2]; [by destruct (p_txmap s !! t_hash tx); subst s1|].
    destruct (flush_to_pending_inv _ _ (i_d _ _ _ _ I) Hs2) as (_ & _ & _ & _ & _ & _ & _ & EG). rewrite <- EG.
    by destruct (p_txmap s !! t_hash tx); subst s1.
  - injection H as <-. eauto.
  - destruct (pool_package srt s g l) as [[s1 out]| |] eqn:E; try discriminate; injection H as <-; [|eauto].
    unfold pool_package in E. destruct (sys_package_ok s); [|discriminate].
    destruct (bool_decide (p_co s = [])); [injection E as <- <-; eauto|].
    destruct (flush_to_pending s) as [s2| |] eqn:E2; try discriminate. injection E as <- <-.
    destruct (flush_to_pending_inv _ _ (i_d _ _ _ _ I) E2) as (_ & _ & _ & _ & _ & _ & _ & EG). cbn in HS. rewrite EG in HS. eauto.
  - apply (pool_flush_spec c t U SY) in H as (s1 & s2 & r & hd & b & r2 & E1 & I1 & C1 & E2 & E3 & ->); [|done|done].
    pose proof (i_d _ _ _ _ I1) as D1. rewrite C1 in D1.
    destruct (flush_inner_spec _ _ _ _ _ _ D1 C1 E2) as (_ & _ & _ & _ & _ & _ & _ & _ & _ & _ & _ & EG2).
    destruct (flush_to_pending_inv _ _ (i_d _ _ _ _ I) E1) as (_ & _ & _ & _ & _ & _ & _ & EG).
    cbn in HS |- *. rewrite EG2 in HS. cbn zeta in HS. rewrite EG in HS.
    set (g := if t <=? n then delete (n - t) (p_gap s) else p_gap s) in HS.
    assert (∀ k S, g !! k = Some S → p_gap s !! k = Some S) as Hg.
    { intros k' S' Hk. subst g. destruct (t <=? n); [|done]. by apply lookup_delete_Some in Hk as [_ ?]. }
    apply lookup_insert_Some in HS as [[<- <-]|[_ HS]]; [|left; eauto].
    apply elem_of_union in Hh as [Hh|Hh].
    + destruct (g !! n) as [S0|] eqn:Eg; cbn in Hh; [|set_solver]. left. eauto.
    + right. exists hs. split; [done|]. by apply elem_of_dom in Hh.
  - destruct (flush_to_pending_inv _ _ (i_d _ _ _ _ I) H) as (_ & _ & _ & _ & _ & _ & _ & EG). rewrite EG in HS. eauto.
Qed.
Theorem C12_timeout_is_age c t srt ops s k S h : reachable c t srt ops s →
  p_gap s !! k = Some S → h ∈ S → recorded_by c t srt ops k h.
Proof.
  intros (HC & HSP & (U & SY & HO) & HR). revert s S HR. induction ops as [|o ops IH] using rev_ind; intros s S HR HS Hh.
  - cbn in HR. injection HR as <-. by cbn in HS.
  - apply Forall_app in HO as [HO HO2]. rewrite run_app in HR.
    destruct (run c t srt pool_new ops) as [s0| |] eqn:E0; try discriminate. cbn in HR.
    destruct (step c t srt s0 o) as [s1| |] eqn:E1; try discriminate. injection HR as <-.
    pose proof (run_inv c t srt U SY HSP HC ops _ _ (inv_new c U SY) HO E0) as I0.
    destruct (step_gap c t srt U SY s0 o s1 k S h HC I0 E1 HS Hh) as [(S0 & H1 & H2)|(hs & -> & [p Hp])].
    + destruct (IH HO s0 S0 eq_refl H1 H2) as (pre & hs & post & s' & -> & Hs' & Hc).
      exists pre, hs, (post ++ [o]), s'. by rewrite <- app_assoc.
    + exists ops, hs, [], s1. split; [done|]. rewrite run_app, E0. cbn. cbn in E1. rewrite E1. split; [done|].
      unfold pool_contains. by rewrite Hp.
Qed.

(** System transactions stay until a block carries a system transaction recorded for the same data. *)
Theorem C12_system_kept c t srt ops s o s' h tx :
  reachable c t srt (ops ++ [o]) s' → run c t srt pool_new ops = Ok s → sys_get s h = Some tx →
  sys_get s' h = Some tx ∨ ∃ hs n h', o = OFlush hs n ∧ h' ∈ hs ∧ p_hash_data s !! h' = Some (t_data tx).
Proof.
  intros (HC & HSP & (U & SY & HO) & HR) H1 HG. apply Forall_app in HO as [HO HO2]. apply Forall_cons in HO2 as [HOo _].
  pose proof (run_inv c t srt U SY HSP HC ops _ _ (inv_new c U SY) HO H1) as I.
  rewrite run_app, H1 in HR. cbn in HR. destruct (step c t srt s o) as [s1| |] eqn:H; try discriminate. injection HR as <-.
  assert (∀ s2, p_hash_data s2 = p_hash_data s → p_buckets s2 = p_buckets s → sys_get s2 h = Some tx) as Same.
  { intros s2 A B. unfold sys_get in *. by rewrite A, B. }
  destruct o as [tx' lim d|tx'|g l|hs n|]; cbn in H, HOo.
  - left. destruct (pool_insert c s tx' lim d) as [s2| |] eqn:E; try discriminate; injection H as <-; [|done].
    apply (pool_insert_spec c U SY) in E as (HL & s3 & Hs2 & I2 & ET & _ & E); [|done|done].
    assert (p_hash_data s3 = p_hash_data s ∧ p_buckets s3 = p_buckets s) as [A B].
    { destruct Hs2 as [->|Hs2]; [done|]. by destruct (flush_to_pending_inv _ _ (i_d _ _ _ _ I) Hs2) as (_ & _ & _ & _ & ? & ? & _). }
    by destruct (p_txmap s !! t_hash tx'); subst s2; apply Same.
  - left. injection H as <-. unfold sys_get in *. unfold pool_insert_sys. cbn.
    destruct (p_hash_data s !! h) as [dh|] eqn:Eh; [|done]. destruct (p_buckets s !! dh) as [m|] eqn:Em; [|done].
    destruct (i_bk _ _ _ _ I dh m Em) as [_ X]. destruct (X h tx HG) as (X1 & X2 & X3 & X4 & _).
    destruct HOo as [Y1 Y2].
    destruct (decide (h = t_hash tx')) as [E|].
    + assert (tx' = tx) as -> by (rewrite <- E in Y1; congruence). by rewrite X1, X3, !lookup_insert.
    + rewrite lookup_insert_ne by done. rewrite Eh. destruct (decide (dh = t_data tx')) as [->|].
      * rewrite lookup_insert, Em. cbn. by rewrite lookup_insert_ne.
      * rewrite lookup_insert_ne by done. by rewrite Em.
  - left. destruct (pool_package srt s g l) as [[s2 out]| |] eqn:E; try discriminate; injection H as <-; [|done].
    unfold pool_package in E. destruct (sys_package_ok s); [|discriminate].
    destruct (bool_decide (p_co s = [])); [injection E as <- <-; by apply Same|].
    destruct (flush_to_pending s) as [s3| |] eqn:E2; try discriminate. injection E as <- <-.
    destruct (flush_to_pending_inv _ _ (i_d _ _ _ _ I) E2) as (_ & _ & _ & _ & ? & ? & _). by apply Same.
  - apply (pool_flush_spec c t U SY) in H as (s2 & s3 & r & hd & b & r2 & E1 & I1 & C1 & E2 & E3 & ->); [|done|done].
    pose proof (i_d _ _ _ _ I1) as D1. rewrite C1 in D1.
    destruct (flush_inner_spec _ _ _ _ _ _ D1 C1 E2) as (_ & _ & _ & H2 & B2 & _).
    destruct (flush_to_pending_inv _ _ (i_d _ _ _ _ I) E1) as (_ & _ & _ & _ & EH & EB & _).
    apply (sys_flush_spec U SY) in E3 as (B3 & _ & K1 & K2 & K3 & K4); [|rewrite H2, B2; apply I1].
    rewrite H2, EH in K3, K4. rewrite B2, EB in K1, K4.
    unfold sys_get in HG. destruct (p_hash_data s !! h) as [dh|] eqn:Eh; [|done].
    destruct (p_buckets s !! dh) as [m|] eqn:Em; [|done].
    destruct (i_bk _ _ _ _ I dh m Em) as [_ X]. destruct (X h tx HG) as (_ & _ & X3 & _).
    destruct (b !! dh) as [m'|] eqn:Eb.
    + left. apply K1 in Eb as Eb'. assert (m' = m) as -> by congruence.
      destruct (B3 dh m Eb) as [_ Y]. destruct (Y h tx HG) as (_ & _ & _ & Y4 & _). unfold sys_get. cbn. by rewrite Y4, Eb.
    + right. destruct (K4 dh m Em Eb) as (h' & Hh' & Hd'). exists hs, n, h'. by rewrite X3.
  - left. destruct (flush_to_pending_inv _ _ (i_d _ _ _ _ I) H) as (_ & _ & _ & _ & ? & ? & _). by apply Same.
Qed.

(** Sender 7 queues nonces 0 and 1; the second is replaced by a dearer one, the first is committed. *)
Example C12_example :
  let ops := [OInsert (T 1 7 0 5) true 0; OInsert (T 2 7 1 5) true 1; OInsert (T 3 7 1 9) true 1; ORefresh; OFlush [1] 1] in
  ∃ s, go ops = Ok s ∧ consistentb ops = true ∧ pool_get s 1 = None ∧ pool_get s 2 = None ∧ pool_get s 3 = Some (T 3 7 1 9).
Proof. cbn zeta. eexists. split; [vm_compute; reflexivity|]. repeat split; reflexivity. Qed.

(* ---------------------------------------------------------------- *)
(** * C13 *)

(** Distinct, held by the pool, the user part live and no longer than requested, the first [n] hashes the
    system ones; the pool is unchanged apart from internal queues. *)
Theorem C13_package_sound c t srt ops s g l s' hs n :
  reachable c t srt ops s → pool_package srt s g l = Ok (s', (hs, n)) →
  NoDup hs ∧ (∀ h, h ∈ hs → pool_contains s' h = true) ∧
  ∃ sys user, hs = sys ++ user ∧ (length user ≤ l)%nat ∧
    (∀ h, h ∈ sys → is_Some (sys_get s' h)) ∧ (∀ h, h ∈ user → ∃ p, phash p = h ∧ live s' p) ∧
    (N.of_nat (length sys) < 2^32 → n = N.of_nat (length sys)).
Proof.
  intros (HC & HSP & (U & SY & HO) & HR) HP.
  pose proof (run_inv c t srt U SY HSP HC ops _ _ (inv_new c U SY) HO HR) as I.
  destruct (package_spec c srt U SY HSP HC s g l s' hs n I HP) as (user & -> & -> & Eu & I' & C').
  destruct (sys_package_spec c U SY s' I') as (N1 & L1 & _ & S1 & _).
  assert (∀ p, p ∈ user → live s' p) as HU.
  { intros p Hp. rewrite Eu in Hp. apply elem_of_take in Hp as (i & Hp & _). apply elem_of_list_lookup_2 in Hp.
    apply elem_of_list_filter in Hp as [Hd Hr]. split; [by apply (d_real _ _ _ _ _ _ (i_d _ _ _ _ I'))|by apply is_dropped_false]. }
  assert (∀ h, h ∈ sys_package s' → is_Some (sys_get s' h)) as HSs.
  { intros h Hh. destruct (S1 h Hh) as (tx & Ht & _). eauto. }
  split; [|split].
  - apply NoDup_app. split; [done|]. split.
    + intros h H1 H2. apply elem_of_list_fmap in H2 as (p & -> & Hp). destruct (S1 _ H1) as (_ & _ & _ & X).
      destruct (HU p Hp) as [Y _]. destruct (i_tm _ _ _ _ I' _ _ Y). congruence.
    + apply NoDup_fmap_2_strong.
      * intros x y Hx Hy E. destruct (HU x Hx) as [X _]. destruct (HU y Hy) as [Y _]. congruence.
      * rewrite Eu. assert (NoDup (filter (λ p, is_dropped (p_flags s') p = false) (p_real s'))) as ND
          by (apply NoDup_filter, (i_d _ _ _ _ I')).
        rewrite <- (take_drop l (filter _ _)) in ND. by apply NoDup_app in ND as [? _].
  - intros h [Hh|Hh]%elem_of_app.
    + apply all_hashes_contains. unfold all_hashes. apply elem_of_union. right. apply sys_hashes_spec. auto.
    + apply elem_of_list_fmap in Hh as (p & -> & Hp). destruct (HU p Hp) as [X _]. unfold pool_contains. by rewrite X.
  - exists (sys_package s'), (phash <$> user). split; [done|]. split.
    + rewrite fmap_length, Eu, take_length. lia.
    + split; [done|]. split.
      * intros h Hh. apply elem_of_list_fmap in Hh as (p & -> & Hp). exists p. auto.
      * intros Hlt. rewrite L1 in Hlt |- *. exact (N.mod_small _ _ Hlt).
Qed.

(** Nothing ready is left out: with room in the limit every live transaction whose turn has come (it has been
    moved to the package list) is in the package. *)
Theorem C13_package_complete c t srt ops s g l s' hs n :
  reachable c t srt ops s → pool_package srt s g l = Ok (s', (hs, n)) → (size (user_hashes s') ≤ l)%nat →
  (∀ p, live s' p → packaged (p_flags s') p → phash p ∈ hs) ∧
  (∀ h tx, sys_get s' h = Some tx → ∃ h' tx', h' ∈ hs ∧ sys_get s' h' = Some tx' ∧ t_data tx' = t_data tx).
Proof.
  intros (HC & HSP & (U & SY & HO) & HR) HP HL.
  pose proof (run_inv c t srt U SY HSP HC ops _ _ (inv_new c U SY) HO HR) as I.
  destruct (package_spec c srt U SY HSP HC s g l s' hs n I HP) as (user & -> & -> & Eu & I' & C').
  split.
  - intros p [Hp Hd] Hk. apply elem_of_app. right. apply elem_of_list_fmap. exists p. split; [done|].
    rewrite Eu, take_ge.
    + apply elem_of_list_filter. split; [by apply is_dropped_false|]. by eapply (d_pkg _ _ _ _ _ _ (i_d _ _ _ _ I')).
    + etrans; [apply filter_length|]. etrans; [|exact HL]. unfold user_hashes.
      pose proof (i_d _ _ _ _ I') as D. rewrite <- (fmap_length phash).
      assert (NoDup (phash <$> p_real s')) as ND.
      { apply NoDup_fmap_2_strong; [|apply D]. intros x y Hx Hy E.
        apply (d_real _ _ _ _ _ _ D) in Hx as [Hx _]. apply (d_real _ _ _ _ _ _ D) in Hy as [Hy _]. congruence. }
      rewrite <- (size_list_to_set (C:=gset N) (phash <$> p_real s')) by done. apply subseteq_size.
      intros h Hh. apply elem_of_list_to_set, elem_of_list_fmap in Hh as (p' & -> & Hp').
      apply (d_real _ _ _ _ _ _ D) in Hp' as [Hp' _]. apply elem_of_dom. eauto.
  - intros h tx Hg. destruct (sys_package_spec c U SY s' I') as (_ & _ & _ & _ & S2).
    destruct (S2 h tx Hg) as (h' & tx' & ? & ? & ?). exists h', tx'. split; [set_solver|done].
Qed.

(** The gas limit is ignored: two transactions of 21000 gas packaged for a limit of 1. *)
Definition gas_of (s : pool) (hs : list N) : N :=
  fold_right (λ h acc, match pool_get s h with Some tx => t_gas tx + acc | None => acc end) 0 hs.
Theorem C13_gas_limit_refuted : ∃ ops s g l s' hs n, reachable 100 20 isort ops s ∧
  pool_package isort s g l = Ok (s', (hs, n)) ∧ g < gas_of s' hs.
Proof.
  exists [OInsert (T 1 7 0 5) true 0; OInsert (T 2 7 1 5) true 1]. eexists. exists 1, 10%nat. do 3 eexists.
  split; [apply go_reachable; vm_compute; reflexivity|]. split; [vm_compute; reflexivity|]. vm_compute. done.
Qed.

Example C13_example :
  let ops := [OInsert (T 1 7 0 5) true 0; OInsert (T 2 7 1 5) true 1; OInsertSys (Sy 3 [1]); OInsertSys (Sy 4 [1])] in
  ∃ s s', go ops = Ok s ∧ consistentb ops = true ∧ pool_package isort s 100 10 = Ok (s', ([3; 1; 2], 1)).
Proof. cbn zeta. do 2 eexists. split; [vm_compute; reflexivity|]. split; vm_compute; reflexivity. Qed.
