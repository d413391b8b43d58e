(** Properties of the transaction pool, continued: C14, C15, C16, C19. *)
From Verif Require Import TxModel PoolModel PoolProofs PoolProofs2 PoolProofs3 PoolProofs4 PoolProofs5 PoolProps.
From Coq Require Import Sorting.Sorted.

(* ---------------------------------------------------------------- *)
(** * C14 *)

(** The claim for one package: any two hashes of transactions of one sender stand in nonce order. *)
Definition nonce_ordered (s : pool) (hs : list N) : Prop :=
  ∀ i j hi hj ti tj, hs !! i = Some hi → hs !! j = Some hj → (i < j)%nat →
    pool_get s hi = Some ti → pool_get s hj = Some tj → t_sender ti = t_sender tj → t_nonce ti < t_nonce tj.

(** Sender 7 has nonces 0 and 1 packaged, then replaces nonce 0 by a dearer transaction while sender 8 offers a
    price in between: the package lists nonce 1 before nonce 0. *)
Theorem C14_nonce_order_refuted : ∃ ops s g l s' hs n, reachable 100 20 isort ops s ∧
  pool_package isort s g l = Ok (s', (hs, n)) ∧ ¬ nonce_ordered s' hs.
Proof.
  exists [OInsert (T 1 7 0 2) true 0; OInsert (T 2 7 1 1) true 1; OPackage 0 10; OInsert (T 3 8 0 5) true 0; OInsert (T 4 7 0 10) true 0].
  eexists. exists 0, 10%nat. do 3 eexists. split; [apply go_reachable; vm_compute; reflexivity|].
  split; [vm_compute; reflexivity|]. intros H.
  specialize (H 0%nat 2%nat 2 4 (T 2 7 1 1) (T 4 7 0 10)).
  assert (t_nonce (T 2 7 1 1) < t_nonce (T 4 7 0 10)) as X by (apply H; try (vm_compute; reflexivity); lia).
  vm_compute in X. discriminate.
Qed.

(** The package list is in order when any two entries of one sender are. *)
Definition before (a b : ptr) : Prop := psender a = psender b → pnonce a < pnonce b.
Definition queue_ordered (l : list ptr) : Prop := StronglySorted before l.

Lemma ins_rev_ordered x l : StronglySorted (flip before) l → (∀ y, y ∈ l → before y x) → StronglySorted (flip before) (ins_rev x l).
Proof.
  induction l as [|y l IH]; intros HS HX; cbn.
  - repeat constructor.
  - apply StronglySorted_inv in HS as [HS HF]. destruct (tx_lt x y) eqn:E.
    + assert (psender x ≠ psender y) as Hne.
      { intros Es. unfold tx_lt, tx_cmp in E. rewrite Es, N.eqb_refl in E. destruct (N.compare_spec (pnonce x) (pnonce y)); try discriminate.
        assert (pnonce y < pnonce x) by (apply HX; [set_solver|done]). lia. }
      constructor.
      * apply IH; [done|]. intros z Hz. apply HX. set_solver.
      * rewrite Forall_forall in HF |- *. intros z Hz. rewrite ins_rev_perm in Hz. apply elem_of_cons in Hz as [->|Hz]; [by intros ?|auto].
    + constructor; [by constructor|]. apply Forall_forall. intros z Hz. apply HX. done.
Qed.
Lemma fold_ins_ordered l acc : StronglySorted (flip before) acc → queue_ordered l → (∀ x y, x ∈ acc → y ∈ l → before x y) →
  StronglySorted (flip before) (fold_left (λ acc x, ins_rev x acc) l acc).
Proof.
  revert acc. induction l as [|x l IH]; intros acc HA HL HX; cbn; [done|].
  apply StronglySorted_inv in HL as [HL HF]. apply IH; [|done|].
  - apply ins_rev_ordered; [done|]. intros y Hy. apply HX; set_solver.
  - intros y z Hy Hz. rewrite ins_rev_perm in Hy. apply elem_of_cons in Hy as [->|Hy].
    + rewrite Forall_forall in HF. auto.
    + apply HX; set_solver.
Qed.
Lemma StronglySorted_rev {A} (R : A → A → Prop) l : StronglySorted (flip R) l → StronglySorted R (rev l).
Proof.
  induction l as [|x l IH]; intros H; cbn; [constructor|]. apply StronglySorted_inv in H as [H HF].
  specialize (IH H). rewrite Forall_forall in HF.
  assert (∀ y, y ∈ rev l → R y x) as HR. { intros y Hy. rewrite <- Permutation_rev in Hy. apply (HF y Hy). }
  revert IH HR. generalize (rev l) as m. clear. induction m as [|z m IH]; intros HS HR; cbn; [repeat constructor|].
  apply StronglySorted_inv in HS as [HS HF]. constructor; [apply IH; [done|intros; apply HR; set_solver]|].
  apply Forall_app. split; [done|]. constructor; [apply HR; set_solver|constructor].
Qed.
(** The library sort (up to 20 elements) never reorders two transactions of one sender that stand in nonce order,
    although the comparison is not an order. *)
Theorem C14_sort_keeps_order_partial l : queue_ordered l → queue_ordered (isort l).
Proof.
  intros H. apply StronglySorted_rev. apply fold_ins_ordered; [constructor|done|]. intros x y Hx. by apply not_elem_of_nil in Hx.
Qed.

(** So a package taken from an ordered package list is in nonce order; the list of ready transactions is that of
    the state after the drain. *)
Theorem C14_package_order_partial c t ops s g l s' hs n :
  reachable c t isort ops s → pool_package isort s g l = Ok (s', (hs, n)) → 
  (∀ s1, s1 = s ∨ flush_to_pending s = Ok s1 → queue_ordered (p_real s1)) →
  ∃ sys user, hs = sys ++ user ∧ (∀ h, h ∈ sys → is_Some (sys_get s' h)) ∧ nonce_ordered s' user.
Proof.
  intros (HC & HSP & (U & SY & HO) & HR) HP HQ.
  pose proof (run_inv c t isort U SY HSP HC ops _ _ (inv_new c U SY) HO HR) as I.
  destruct (package_spec c isort U SY HSP HC s g l s' hs n I HP) as (user & -> & -> & Eu & I' & C').
  exists (sys_package s'), (phash <$> user). split; [done|]. split.
  { destruct (sys_package_spec c U SY s' I') as (_ & _ & _ & S1 & _). intros h Hh. destruct (S1 h Hh) as (tx & -> & _). eauto. }
  assert (queue_ordered (p_real s')) as HQ'.
  { unfold pool_package in HP. destruct (sys_package_ok s); [|discriminate]. destruct (bool_decide (p_co s = [])).
    - injection HP as <- _ _. cbn. apply C14_sort_keeps_order_partial, HQ. by left.
    - destruct (flush_to_pending s) as [s1| |] eqn:E; try discriminate. injection HP as <- _ _. cbn.
      apply C14_sort_keeps_order_partial, HQ. by right. }
  assert (queue_ordered user) as HU.
  { rewrite Eu. set (L := p_real s') in *. clearbody L. clear -HQ'. unfold queue_ordered in *.
    assert (∀ L, StronglySorted before L → StronglySorted before (filter (λ p, is_dropped (p_flags s') p = false) L)) as F.
    { clear. induction L as [|x L IH]; intros H; [constructor|]. apply StronglySorted_inv in H as [H HF]. rewrite filter_cons.
      destruct (decide _); [|auto]. constructor; [auto|]. rewrite Forall_forall in HF |- *. intros y Hy. apply elem_of_list_filter in Hy as [_ Hy]. auto. }
    apply F in HQ'. revert HQ'. generalize (filter (λ p, is_dropped (p_flags s') p = false) L) as M. clear. intros M. revert l.
    induction M as [|x M IH]; intros [|l] H; cbn; try constructor.
    - apply IH. by apply StronglySorted_inv in H as [? _].
    - apply StronglySorted_inv in H as [_ HF]. rewrite Forall_forall in HF |- *. intros y Hy. apply HF.
      apply elem_of_take in Hy as (i & Hy & _). by apply elem_of_list_lookup_2 in Hy. }
  intros i j hi hj ti tj Hi Hj Hij Gi Gj Hs.
  rewrite list_lookup_fmap in Hi, Hj. destruct (user !! i) as [pi|] eqn:Ei; [|done]. destruct (user !! j) as [pj|] eqn:Ej; [|done].
  cbn in Hi, Hj. injection Hi as <-. injection Hj as <-.
  assert (∀ k p, user !! k = Some p → pool_get s' (phash p) = Some (pt_tx p)) as HG.
  { intros k p Hk. apply elem_of_list_lookup_2 in Hk. rewrite Eu in Hk. apply elem_of_take in Hk as (k' & Hk & _).
    apply elem_of_list_lookup_2, elem_of_list_filter in Hk as [_ Hk].
    destruct (d_real _ _ _ _ _ _ (i_d _ _ _ _ I') p Hk) as [X _]. unfold pool_get. by rewrite X. }
  rewrite (HG _ _ Ei) in Gi. rewrite (HG _ _ Ej) in Gj. injection Gi as <-. injection Gj as <-.
  clear -HU Ei Ej Hij Hs. revert i j Ei Ej Hij. induction user as [|x user IH]; intros i j Ei Ej Hij; [done|].
  apply StronglySorted_inv in HU as [HU HF]. destruct j as [|j]; [lia|]. destruct i as [|i]; cbn in Ei, Ej.
  - injection Ei as ->. rewrite Forall_forall in HF. apply elem_of_list_lookup_2 in Ej. by apply (HF pj Ej).
  - eapply (IH HU i j); eauto. lia.
Qed.
Example C14_example :
  let ops := [OInsert (T 1 7 0 9) true 0; OInsert (T 2 7 1 1) true 1; OInsert (T 3 8 0 5) true 0] in
  ∃ s s', go ops = Ok s ∧ consistentb ops = true ∧ pool_package isort s 0 10 = Ok (s', ([1; 2; 3], 0)).
Proof. cbn zeta. do 2 eexists. split; [vm_compute; reflexivity|]. split; vm_compute; reflexivity. Qed.

(* ---------------------------------------------------------------- *)
(** * C15 *)

(** Once the queue is drained there is at most one live transaction per sender and nonce. *)
Theorem C15_one_live c t srt ops s p1 p2 : reachable c t srt ops s → p_co s = [] →
  live s p1 → live s p2 → psender p1 = psender p2 → pnonce p1 = pnonce p2 → p1 = p2.
Proof.
  intros R HCo [A1 A2] [B1 B2] Hs Hn. destruct (reachable_inv _ _ _ _ _ R) as (U & SY & _ & I).
  pose proof (i_d _ _ _ _ I) as D. rewrite HCo in D.
  destruct (d_live _ _ _ _ _ _ D _ _ A1 A2) as [X|(q1 & X1 & X2)]; [by apply not_elem_of_nil in X|].
  destruct (d_live _ _ _ _ _ _ D _ _ B1 B2) as [X|(q2 & Y1 & Y2)]; [by apply not_elem_of_nil in X|].
  congruence.
Qed.

(** A transaction already in its slot leaves it, in a drain, only for a live one with a strictly higher price. *)
Theorem C15_strictly_higher c t srt ops s s1 p : reachable c t srt ops s → flush_to_pending s = Ok s1 →
  live s p → p ∉ (p_co s).*1 → ¬ live s1 p →
  ∃ p', live s1 p' ∧ psender p' = psender p ∧ pnonce p' = pnonce p ∧ pprice p < pprice p'.
Proof.
  intros R HF [A1 A2] HN HL. destruct (reachable_inv _ _ _ _ _ R) as (U & SY & _ & I). pose proof (i_d _ _ _ _ I) as D.
  destruct (flush_to_pending_inv _ _ D HF) as (D1 & C1 & E1 & _).
  unfold flush_to_pending in HF. destruct (fold_left drain_one _ _) as [[[f pend] real]| |] eqn:E; try discriminate.
  injection HF as <-. destruct (drain_loss _ _ _ _ _ _ _ _ _ D E) as (G & _ & _). cbn in *.
  destruct (d_live _ _ _ _ _ _ D _ _ A1 A2) as [X|(q1 & X1 & X2)]; [done|].
  destruct (G _ _ X1) as (q' & Hq' & _ & _ & Hg). destruct (Hg _ _ X2) as (p' & Hp' & Hor).
  destruct (d_pend _ _ _ _ _ _ D1 _ _ _ _ Hq' Hp') as (Y1 & Y2 & Y3 & Y4 & _).
  destruct Hor as [->|Hlt]; [exfalso; apply HL; done|]. exists p'. repeat split; auto.
Qed.

(** A newcomer that does not offer strictly more than the transaction in its slot does not get in. *)
Theorem C15_tie_loses c t srt ops s s1 p p0 : reachable c t srt ops s → flush_to_pending s = Ok s1 →
  p ∈ (p_co s).*1 → live s p0 → p0 ∉ (p_co s).*1 → psender p0 = psender p → pnonce p0 = pnonce p → pprice p <= pprice p0 →
  ¬ live s1 p.
Proof.
  intros R HF Hp [A1 A2] HN Hs Hn Hpr [L1 L2]. destruct (reachable_inv _ _ _ _ _ R) as (U & SY & _ & I). pose proof (i_d _ _ _ _ I) as D.
  destruct (flush_to_pending_inv _ _ D HF) as (D1 & C1 & E1 & _).
  unfold flush_to_pending in HF. destruct (fold_left drain_one _ _) as [[[f pend] real]| |] eqn:E; try discriminate.
  injection HF as <-. destruct (drain_loss _ _ _ _ _ _ _ _ _ D E) as (G & _ & _). cbn in *.
  destruct (d_live _ _ _ _ _ _ D _ _ A1 A2) as [X|(q1 & X1 & X2)]; [done|].
  destruct (G _ _ X1) as (q' & Hq' & _ & _ & Hg). destruct (Hg _ _ X2) as (p' & Hp' & Hor).
  destruct (d_live _ _ _ _ _ _ D1 _ _ L1 L2) as [X|(q2 & Y1 & Y2)]; [by apply not_elem_of_nil in X|].
  rewrite <- Hs in Y1. rewrite <- Hn in Y2. assert (p' = p) as -> by congruence.
  destruct Hor as [->|Hlt]; [done|lia].
Qed.

(** A newcomer that loses has lost its slot to a live transaction offering at least as much, or is refused for the
    account's limit or a stale nonce. *)
Theorem C15_winner_exists c t srt ops s s1 p : reachable c t srt ops s → flush_to_pending s = Ok s1 → live s p → ¬ live s1 p →
  (∃ p', live s1 p' ∧ psender p' = psender p ∧ pnonce p' = pnonce p ∧ p' ≠ p ∧ pprice p <= pprice p') ∨
  account_full (p_pending s1) p ∨ nonce_stale (p_pending s1) p.
Proof.
  intros R HF HL HN. destruct (reachable_inv _ _ _ _ _ R) as (U & SY & _ & I). pose proof (i_d _ _ _ _ I) as D.
  destruct (drain_live c U SY s s1 p I HF HL) as [X|[(q & p' & Hq & Hp' & Hne & Hpr)|X]]; [done| |by right].
  left. destruct (flush_to_pending_inv _ _ D HF) as (D1 & C1 & E1 & _).
  destruct (d_pend _ _ _ _ _ _ D1 _ _ _ _ Hq Hp') as (Y1 & Y2 & Y3 & Y4 & _). exists p'. repeat split; auto.
Qed.

(** The loser is never packaged, whatever happens later, unless its hash is inserted again. *)
Theorem C15_loser_never_packaged c t srt ops1 ops2 s1 s2 p g l s' hs n :
  reachable c t srt (ops1 ++ ops2) s2 → run c t srt pool_new ops1 = Ok s1 →
  p_txmap s1 !! phash p = Some p → ¬ live s1 p → Forall (λ o, ¬ inserts o (phash p)) ops2 →
  pool_package srt s2 g l = Ok (s', (hs, n)) → phash p ∉ hs.
Proof.
  intros (HC & HSP & (U & SY & HO) & HR) H1 Hp HL HI HP. apply Forall_app in HO as [HO1 HO2].
  pose proof (run_inv c t srt U SY HSP HC ops1 _ _ (inv_new c U SY) HO1 H1) as I1.
  rewrite run_app, H1 in HR.
  assert (dead (phash p) s1) as Hd.
  { split.
    - intros p' Hp'. assert (p' = p) as -> by congruence. destruct (decide (pt_id p ∈ f_drop (p_flags s1))) as [|X]; [done|]. exfalso. apply HL. done.
    - destruct (sys_get s1 (phash p)) as [tx|] eqn:E; [|done]. exfalso. unfold sys_get in E.
      destruct (p_hash_data s1 !! phash p) as [d|]; [|done]. destruct (p_buckets s1 !! d) as [m|] eqn:Em; [|done].
      destruct (i_bk _ _ _ _ I1 d m Em) as [_ X]. destruct (X _ _ E) as (_ & _ & _ & _ & Y).
      destruct (i_tm _ _ _ _ I1 _ _ Hp). congruence. }
  assert (Inv c U SY s2) as I2 by exact (run_inv c t srt U SY HSP HC ops2 _ _ I1 HO2 HR).
  pose proof (run_dead c t srt U SY HSP HC ops2 s1 s2 (phash p) I1 HO2 HI HR Hd) as Hd2.
  destruct (package_spec c srt U SY HSP HC s2 g l s' hs n I2 HP) as (user & -> & -> & Eu & I' & C').
  assert (dead (phash p) s') as [Hd1' Hd2'].
  { apply (step_dead c t srt U SY HC s2 (OPackage g l) s'); cbn; auto. by rewrite HP. }
  intros [Hin|Hin]%elem_of_app.
  - destruct (sys_package_spec c U SY s' I') as (_ & _ & _ & S1 & _). destruct (S1 _ Hin) as (tx & X & _). congruence.
  - apply elem_of_list_fmap in Hin as (p' & Eh & Hp'). rewrite Eu in Hp'. apply elem_of_take in Hp' as (i & Hp' & _).
    apply elem_of_list_lookup_2, elem_of_list_filter in Hp' as [Hnd Hr]. apply is_dropped_false in Hnd.
    destruct (d_real _ _ _ _ _ _ (i_d _ _ _ _ I') p' Hr) as [X _]. rewrite <- Eh in X. by apply Hnd, Hd1'.
Qed.

Example C15_example :
  let ops := [OInsert (T 1 7 0 5) true 0; ORefresh; OInsert (T 2 7 0 5) true 0; OInsert (T 3 7 0 6) true 0; ORefresh] in
  ∃ s, go ops = Ok s ∧ consistentb ops = true ∧ p_co s = [] ∧
    ((λ p, is_dropped (p_flags s) p) <$> p_txmap s !! 1) = Some true ∧
    ((λ p, is_dropped (p_flags s) p) <$> p_txmap s !! 2) = Some true ∧
    ((λ p, is_dropped (p_flags s) p) <$> p_txmap s !! 3) = Some false.
Proof. cbn zeta. eexists. split; [vm_compute; reflexivity|]. repeat split; vm_compute; reflexivity. Qed.

(* ---------------------------------------------------------------- *)
(** * C16 *)

(** Right after a block is flushed none of its hashes is in the pool; and until one of them is inserted
    again it is neither contained nor packaged, through any number of further operations. *)
Theorem C16_committed_leave c t srt ops1 hs k ops2 s h :
  reachable c t srt (ops1 ++ OFlush hs k :: ops2) s → h ∈ hs → Forall (λ o, ¬ inserts o h) ops2 →
  pool_contains s h = false ∧ pool_get s h = None ∧
  ∀ g l s' out n, pool_package srt s g l = Ok (s', (out, n)) → h ∉ out.
Proof.
  intros (HC & HSP & (U & SY & HO) & HR) Hh HI. apply Forall_app in HO as [HO1 HO2]. apply Forall_cons in HO2 as [_ HO2].
  rewrite run_app in HR. destruct (run c t srt pool_new ops1) as [s0| |] eqn:E0; try discriminate.
  cbn in HR. destruct (pool_flush t s0 hs k) as [s1| |] eqn:E1; try discriminate.
  pose proof (run_inv c t srt U SY HSP HC ops1 _ _ (inv_new c U SY) HO1 E0) as I0.
  assert (Inv c U SY s1) as I1 by (apply (step_inv c t srt U SY HSP HC s0 (OFlush hs k) s1 I0 Logic.I); exact E1).
  destruct (flush_kills c t U SY HC s0 hs k s1 h I0 E1 Hh) as [K1 K2].
  (* absent stays absent *)
  assert (∀ ops sa sb, Inv c U SY sa → Forall (op_ok U SY) ops → Forall (λ o, ¬ inserts o h) ops → run c t srt sa ops = Ok sb →
    p_txmap sa !! h = None ∧ sys_get sa h = None → p_txmap sb !! h = None ∧ sys_get sb h = None) as KK.
  { clear -HC HSP. induction ops as [|o ops IH]; intros sa sb Ia HO HI HR H; cbn in HR; [by injection HR as <-|].
    apply Forall_cons in HO as [HO HOs]. apply Forall_cons in HI as [HI HIs].
    destruct (step c t srt sa o) as [sc| |] eqn:E; try discriminate.
    apply (IH sc sb); auto; [exact (step_inv c t srt U SY HSP HC sa o sc Ia HO E)|].
    destruct H as [H1 H2]. split.
    2:{ assert (dead h sa) as Hd by (split; [intros p Hp; congruence|done]). apply (step_dead c t srt U SY HC sa o sc h Ia HO HI E Hd). }
    clear IH. destruct o as [tx lim d|tx|g l|hs n|]; cbn in E, HI.
    - destruct (pool_insert c sa tx lim d) as [s2| |] eqn:EI; try discriminate; injection E as <-; [|done].
      apply (pool_insert_spec c U SY) in EI as (_ & s3 & _ & _ & ET & _ & EI); [|done|done].
      destruct (p_txmap sa !! t_hash tx); subst s2; cbn; rewrite ET; [done|]. by rewrite lookup_insert_ne.
    - by injection E as <-.
    - destruct (pool_package srt sa g l) as [[s2 out]| |] eqn:EP; try discriminate; injection E as <-; [|done].
      unfold pool_package in EP. destruct (sys_package_ok sa); [|discriminate].
      destruct (bool_decide (p_co sa = [])); [by injection EP as <- <-|].
      destruct (flush_to_pending sa) as [s3| |] eqn:E2; try discriminate. injection EP as <- <-.
      destruct (flush_to_pending_inv _ _ (i_d _ _ _ _ Ia) E2) as (_ & _ & ET & _). cbn. by rewrite ET.
    - apply (pool_flush_spec c t U SY) in E as (s2 & s3 & r & hd & b & r2 & E1 & I1 & C1 & E2 & E3 & ->); [|done|done].
      pose proof (i_d _ _ _ _ I1) as D1. rewrite C1 in D1.
      destruct (flush_inner_spec _ _ _ _ _ _ D1 C1 E2) as (_ & _ & _ & _ & _ & _ & _ & _ & T2 & _).
      destruct (flush_to_pending_inv _ _ (i_d _ _ _ _ Ia) E1) as (_ & _ & ET & _). cbn.
      destruct (p_txmap s3 !! h) as [p|] eqn:E; [|done]. apply T2 in E as [E _]. congruence.
    - destruct (flush_to_pending_inv _ _ (i_d _ _ _ _ Ia) E) as (_ & _ & ET & _). by rewrite ET. }
  destruct (KK ops2 s1 s I1 HO2 HI HR (conj K1 K2)) as [F1 F2].
  assert (Inv c U SY s) as I2 by exact (run_inv c t srt U SY HSP HC ops2 _ _ I1 HO2 HR).
  split; [|split].
  - destruct (pool_contains s h) eqn:E; [|done]. apply all_hashes_contains in E. unfold all_hashes, user_hashes in E.
    apply elem_of_union in E as [E|E]; [apply elem_of_dom in E as [? E]; congruence|].
    apply sys_hashes_spec in E as [? E]. congruence.
  - unfold pool_get. by rewrite F1.
  - intros g l s' out n HP Hin.
    assert (run c t srt s [OPackage g l] = Ok s') as HR' by (cbn; by rewrite HP).
    destruct (KK [OPackage g l] s s' I2 ltac:(repeat constructor) ltac:(repeat constructor; auto) HR' (conj F1 F2)) as [G1 G2].
    destruct (package_spec c srt U SY HSP HC s g l s' out n I2 HP) as (user & -> & -> & Eu & I' & C').
    apply elem_of_app in Hin as [Hin|Hin].
    + destruct (sys_package_spec c U SY s' I') as (_ & _ & _ & S1 & _). destruct (S1 _ Hin) as (tx & X & _). congruence.
    + apply elem_of_list_fmap in Hin as (p' & -> & Hp'). rewrite Eu in Hp'. apply elem_of_take in Hp' as (i & Hp' & _).
      apply elem_of_list_lookup_2, elem_of_list_filter in Hp' as [Hnd Hr].
      destruct (d_real _ _ _ _ _ _ (i_d _ _ _ _ I') p' Hr) as [X _]. congruence.
Qed.

(** A block also retires what it supersedes: no transaction left has the sender of a committed one and a nonce
    up to the committed one. *)
Theorem C16_superseded_leave c t srt ops s hs k s' p h' p' :
  reachable c t srt ops s → pool_flush t s hs k = Ok s' → p_txmap s' !! phash p = Some p →
  h' ∈ hs → p_txmap s !! h' = Some p' → psender p' = psender p → pnonce p' < pnonce p.
Proof.
  intros R HF Hp Hh Hp' Hs. destruct (reachable_inv _ _ _ _ _ R) as (U & SY & _ & I). destruct R as (HC & _).
  apply (pool_flush_spec c t U SY) in HF as (s2 & s3 & r & hd & b & r2 & E1 & I1 & C1 & E2 & E3 & ->); [|done|done].
  pose proof (i_d _ _ _ _ I1) as D1. rewrite C1 in D1.
  destruct (flush_inner_spec _ _ _ _ _ _ D1 C1 E2) as (_ & _ & _ & _ & _ & _ & _ & _ & _ & _ & T & _).
  destruct (flush_to_pending_inv _ _ (i_d _ _ _ _ I) E1) as (_ & _ & ET & _). cbn in Hp.
  eapply T; eauto. by rewrite ET.
Qed.

Example C16_example :
  let ops := [OInsert (T 1 7 0 5) true 0; OInsert (T 2 7 1 5) true 1; OInsertSys (Sy 3 [1]); OPackage 0 10; OFlush [2; 3] 1; OPackage 0 10] in
  ∃ s, go ops = Ok s ∧ consistentb ops = true ∧ pool_get s 1 = None ∧ pool_get s 2 = None ∧ pool_get s 3 = None.
Proof. cbn zeta. eexists. split; [vm_compute; reflexivity|]. repeat split; vm_compute; reflexivity. Qed.

(* ---------------------------------------------------------------- *)
(** * C19 *)

(** At most 65 transactions wait in an account's pending queue: the per-account limit of 64 is tested with
    "greater than" before the insertion. *)
Theorem C19_account_limit c t srt ops s a : reachable c t srt ops s → (pool_count s a ≤ 65)%nat.
Proof.
  intros R. destruct (reachable_inv _ _ _ _ _ R) as (U & SY & _ & I). unfold pool_count.
  destruct (p_pending s !! a) as [q|] eqn:E; [|lia]. etrans; [|exact (d_len _ _ _ _ _ _ (i_d _ _ _ _ I) a q E)].
  unfold pq_count. rewrite <- !(size_dom (D:=gset N)). apply subseteq_size, subseteq_dom, map_filter_subseteq.
Qed.
(** The count reported is the number of live drained transactions of the account. *)
Theorem C19_count_meaning c t srt ops s a : reachable c t srt ops s → p_co s = [] →
  ∃ l, NoDup l ∧ length l = pool_count s a ∧ ∀ p, p ∈ l ↔ live s p ∧ psender p = a.
Proof.
  intros R HCo. destruct (reachable_inv _ _ _ _ _ R) as (U & SY & _ & I). pose proof (i_d _ _ _ _ I) as D. rewrite HCo in D.
  unfold pool_count. destruct (p_pending s !! a) as [q|] eqn:E.
  - set (m := filter (λ kv : N * ptr, is_dropped (p_flags s) kv.2 = false) (q_map q)).
    assert (∀ p, p ∈ (map_to_list m).*2 ↔ live s p ∧ psender p = a) as HM.
    { intros p. split.
      - intros ([n p'] & -> & Hm)%elem_of_list_fmap. apply elem_of_map_to_list, map_filter_lookup_Some in Hm as [Hm _]. cbn.
        destruct (d_pend _ _ _ _ _ _ D _ _ _ _ E Hm) as (X1 & X2 & X3 & X4 & _). done.
      - intros [[H1 H2] Hs]. destruct (d_live _ _ _ _ _ _ D _ _ H1 H2) as [X|(q1 & X1 & X2)]; [by apply not_elem_of_nil in X|].
        apply elem_of_list_fmap. exists (pnonce p, p). split; [done|]. apply elem_of_map_to_list, map_filter_lookup_Some.
        split; [congruence|]. by apply is_dropped_false. }
    exists (map_to_list m).*2. split; [|split; [|done]].
    + apply NoDup_fmap_2_strong; [|apply NoDup_map_to_list]. intros [n1 p1] [n2 p2] H1 H2 E12. cbn in E12. subst p2.
      apply elem_of_map_to_list, map_filter_lookup_Some in H1 as [H1 _]. apply elem_of_map_to_list, map_filter_lookup_Some in H2 as [H2 _].
      destruct (d_pend _ _ _ _ _ _ D _ _ _ _ E H1) as (_ & _ & <- & _). destruct (d_pend _ _ _ _ _ _ D _ _ _ _ E H2) as (_ & _ & <- & _). done.
    + rewrite fmap_length. done.
  - exists []. split; [constructor|]. split; [done|]. intros p. split; [intros X; by apply not_elem_of_nil in X|].
    intros [[H1 H2] Hs]. destruct (d_live _ _ _ _ _ _ D _ _ H1 H2) as [X|(q1 & X1 & _)]; [by apply not_elem_of_nil in X|]. congruence.
Qed.
(** 70 transactions of one account: 65 wait. *)
Example C19_example :
  let ops := ((λ k : nat, OInsert (T (N.of_nat k) 7 (N.of_nat k) 5) true (N.of_nat k)) <$> seq 0 70) ++ [ORefresh] in
  consistentb ops = true ∧ match go ops with Ok s => pool_count s 7 = 65%nat | _ => False end.
Proof. vm_compute. split; reflexivity. Qed.

Print Assumptions C10_capacity. Print Assumptions C10_full_rejects. Print Assumptions C10_accepts_below.
Print Assumptions C11_length_exact_refuted. Print Assumptions C11_length_at_least_partial. Print Assumptions C11_length_exact_partial.
Print Assumptions C12_accepted_is_live. Print Assumptions C12_never_lost. Print Assumptions C12_timeout_is_age. Print Assumptions C12_system_kept.
Print Assumptions C13_package_sound. Print Assumptions C13_package_complete. Print Assumptions C13_gas_limit_refuted.
Print Assumptions C14_nonce_order_refuted. Print Assumptions C14_sort_keeps_order_partial. Print Assumptions C14_package_order_partial.
Print Assumptions C15_one_live. Print Assumptions C15_strictly_higher. Print Assumptions C15_tie_loses. Print Assumptions C15_winner_exists.
Print Assumptions C15_loser_never_packaged. Print Assumptions C16_committed_leave. Print Assumptions C16_superseded_leave.
Print Assumptions C19_account_limit. Print Assumptions C19_count_meaning.
