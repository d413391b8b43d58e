(** Properties of the transaction pool, continued: C111, transactions that can be executed are offered. *)
From Verif Require Import TxModel PoolModel PoolProofs PoolProofs2 PoolProofs3 PoolProofs4 PoolProofs5 PoolProps PoolProps2 PoolProps3.

(** A search ends at a nonce that is not there. *)
Lemma search_end k f m c out f' c' out' : pq_search k f m c out = Ok (f', c', out') → m !! c' = None ∨ c' = c + N.of_nat k.
Proof.
  revert f c out. induction k as [|k IH]; intros f c out H; cbn [pq_search] in H.
  - injection H as _ <- _. right. lia.
  - destruct (m !! c) as [v|] eqn:E; [|injection H as _ <- _; by left].
    destruct (c =? U64_MAX); [discriminate|].
    destruct (is_package f v); apply IH in H as [H|H]; auto; right; lia.
Qed.
Lemma run_size (m : gmap N ptr) c k : (∀ n, c <= n → n < c + N.of_nat k → is_Some (m !! n)) → (k ≤ size m)%nat.
Proof.
  intros H. set (l := (λ i, c + N.of_nat i) <$> seq 0 k).
  assert (NoDup l) as N1 by (apply NoDup_fmap_2_strong; [intros; lia|apply NoDup_seq]).
  assert (length l = k) as L by (unfold l; by rewrite fmap_length, seq_length).
  rewrite <- L. rewrite <- (size_dom (D:=gset N)). rewrite <- (size_list_to_set (C:=gset N) l) by done.
  apply subseteq_size. intros n Hn. apply elem_of_list_to_set, elem_of_list_fmap in Hn as (i & -> & Hi). apply elem_of_seq in Hi.
  apply elem_of_dom, H; lia.
Qed.
Lemma try_search_offers f q real f2 q2 real2 : pq_try_search f q real = Ok (f2, q2, real2) →
  q_map q2 = q_map q ∧ q_cur q2 = q_cur q ∧ (∀ p, packaged f p → packaged f2 p) ∧
  (∀ n p, (∀ k, q_pop q <= k → k <= n → is_Some (q_map q !! k)) → q_pop q <= n → q_map q !! n = Some p → packaged f2 p).
Proof.
  intros H. unfold pq_try_search in H.
  destruct (pq_search _ f (q_map q) (q_pop q) real) as [[[f' c'] out']| |] eqn:E; try discriminate.
  injection H as <- <- <-. pose proof (search_end _ _ _ _ _ _ _ _ E) as HE.
  apply pq_search_spec in E as (new & -> & HD & HP & HN & HV & HC & HA).
  split; [done|]. split; [done|]. split; [intros p; unfold packaged; rewrite HP; by left|].
  intros n p Hk Hn Hp. destruct (decide (n < c')) as [Hl|Hl].
  - destruct (HA n Hn Hl) as (v & Hv & X). congruence.
  - destruct HE as [HE| ->].
    + destruct (Hk c') as [x Hx]; [done|lia|congruence].
    + exfalso. pose proof (run_size (q_map q) (q_pop q) (S (size (q_map q)))) as X. cut (S (size (q_map q)) ≤ size (q_map q))%nat; [lia|].
      apply X. intros k H1 H2. destruct (HA k H1 H2) as (v & Hv & _). eauto.
Qed.

(** Every queue begins at the nonce of its account and what follows it without a gap is packaged. *)
Record KInv (a : N → N) (f : flags) (pend : gmap N pq) (co : list (ptr * N)) : Prop := {
  k_cur : ∀ b q, pend !! b = Some q → q_cur q = a b;
  k_co : ∀ p d, (p, d) ∈ co → d <= pnonce p ∧ pnonce p - d = a (psender p);
  k_off : ∀ b q n p, pend !! b = Some q → (∀ k, q_cur q <= k → k <= n → is_Some (q_map q !! k)) → q_cur q <= n →
    q_map q !! n = Some p → packaged f p }.

Lemma search_kinv a u f f0 pend0 pend real co b q f2 q2 real2 :
  OInv a u f pend real co → pend !! b = Some q → pq_try_search f q real = Ok (f2, q2, real2) →
  q_cur q = a b → pend = <[b := q]> pend0 → (∀ p, packaged f0 p → packaged f p) → KInv a f0 pend0 co → KInv a f2 (<[b := q2]> pend) co.
Proof.
  intros O Hb H Hc Ep HF K. apply try_search_offers in H as (M & C & P & S).
  assert (∀ b' q', <[b := q2]> pend !! b' = Some q' → (b' = b ∧ q' = q2) ∨ (b' ≠ b ∧ pend0 !! b' = Some q')) as HL.
  { intros b' q' X. subst pend. rewrite insert_insert in X. apply lookup_insert_Some in X as [[<- <-]|[? X]]; auto. }
  split.
  - intros b' q' X. destruct (HL _ _ X) as [[-> ->]|[_ Y]]; [congruence|by apply K].
  - apply K.
  - intros b' q' n p X Hk Hn Hp. destruct (HL _ _ X) as [[-> ->]|[_ Y]].
    + rewrite M, C in *. destruct (decide (n < q_pop q)).
      * apply P. by eapply (o_pkg _ _ _ _ _ _ O b q n p).
      * apply (S n p); [|lia|done]. intros k H1 H2. apply Hk; [|done]. pose proof (o_le _ _ _ _ _ _ O b q Hb). lia.
    + apply P, HF. by eapply (k_off _ _ _ _ K b' q').
Qed.

Lemma drain_one_kinv tm nx a u f pend real co tx d f' pend' real' :
  DInv tm nx f pend real ((tx, d) :: co) → OInv a u f pend real ((tx, d) :: co) → KInv a f pend ((tx, d) :: co) →
  drain_one (Ok (f, pend, real)) (tx, d) = Ok (f', pend', real') → KInv a f' pend' co.
Proof.
  intros D O K H. cbn [drain_one fst snd] in H.
  set (q := default pq_default (pend !! psender tx)) in *.
  destruct (k_co _ _ _ _ K tx d) as [Hd Ht]; [set_solver|].
  destruct (d_co _ _ _ _ _ _ D tx) as (_ & _ & Hun); [cbn; set_solver|].
  destruct (o_co _ _ _ _ _ _ O tx d) as [Hnew Htip]; [set_solver|].
  assert (KInv a f pend co) as K1. { split; try apply K. intros p d' Hp. apply K. set_solver. }
  assert (pend !! psender tx = Some q ∨ q = pq_default) as HD by (subst q; destruct (pend !! psender tx); auto).
  destruct (64 <? size (q_map q))%nat eqn:EL.
  { injection H as <- <- <-. apply Nat.ltb_lt in EL.
    destruct HD as [HD|HD]; [|exfalso; rewrite HD in EL; cbn in EL; rewrite map_size_empty in EL; lia].
    rewrite insert_id by done. split; try apply K1. }
  assert (∀ n p, q_map q !! n = Some p → pend !! psender tx = Some q) as HM.
  { intros n p Hn. destruct HD as [HD|HD]; [done|]. rewrite HD in Hn. cbn in Hn. by rewrite lookup_empty in Hn. }
  unfold pq_insert in H. destruct (pnonce tx <? d) eqn:E1; [discriminate|].
  destruct (pnonce tx <? q_cur q) eqn:E2.
  { exfalso. apply N.ltb_lt in E2. destruct HD as [HD|HD]; [rewrite (k_cur _ _ _ _ K _ _ HD) in E2; lia|rewrite HD in E2; cbn in E2; lia]. }
  apply N.ltb_ge in E2.
  set (q' := if q_cur q <? pnonce tx - d then _ else q) in *.
  assert (q_map q' = q_map q) as Hq' by (subst q'; by destruct (q_cur q <? pnonce tx - d)).
  assert (q_cur q' = a (psender tx)) as Hc'.
  { subst q'. rewrite Ht. destruct (q_cur q <? a (psender tx)) eqn:E3; [done|]. apply N.ltb_ge in E3.
    destruct HD as [HD|HD]; [by apply K|]. rewrite HD in E3 |- *. cbn in *. lia. }
  destruct (q_map q' !! pnonce tx) as [old|] eqn:EO.
  { rewrite Hq' in EO. destruct Hnew. eapply (o_used _ _ _ _ _ _ O); [by eapply HM|done]. }
  set (q1 := PQ (<[pnonce tx:=tx]> (q_map q')) _ _ _) in *.
  destruct (pq_try_search _ q1 _) as [[[f2 q2] real2]| |] eqn:ES; try discriminate.
  injection H as <- <- <-.
  assert (OInv a (λ x, u x ∨ x = slot tx) f (<[psender tx := q1]> pend) real co) as O1.
  { eapply (head_oinv a u f f pend real co tx d q q1 O); auto.
    - subst q1 q'. cbn. destruct (q_cur q <? pnonce tx - d) eqn:E3; [|by left]. apply N.ltb_lt in E3. right. cbn. lia.
    - right. subst q1. cbn. rewrite Hq'. split; [|done]. subst q'. destruct (q_cur q <? pnonce tx - d); cbn; lia. }
  pose proof (search_kinv a _ f f pend _ real co (psender tx) q1 f2 q2 real2 O1 (lookup_insert _ _ _) ES Hc' eq_refl (λ _ x, x) K1) as R.
  by rewrite insert_insert in R.
Qed.

Lemma drain_kinv tm nx a co f pend real f' pend' real' u :
  DInv tm nx f pend real co → OInv a u f pend real co → KInv a f pend co →
  fold_left drain_one co (Ok (f, pend, real)) = Ok (f', pend', real') → KInv a f' pend' [].
Proof.
  revert f pend real u. induction co as [|[tx d] co IH]; intros f pend real u D O K H.
  - cbn in H. by simplify_eq.
  - cbn [fold_left] in H.
    destruct (drain_one (Ok (f, pend, real)) (tx, d)) as [[[f1 pend1] real1]| |] eqn:E.
    + eapply (IH f1 pend1 real1); [by eapply drain_one_inv|by eapply drain_one_oinv|by eapply drain_one_kinv|done].
    + rewrite drain_fail in H by auto. discriminate.
    + rewrite drain_fail in H by auto. discriminate.
Qed.
Lemma flush_to_pending_kinv a u s s' :
  DInv (p_txmap s) (p_next s) (p_flags s) (p_pending s) (p_real s) (p_co s) →
  OInv a u (p_flags s) (p_pending s) (p_real s) (p_co s) → KInv a (p_flags s) (p_pending s) (p_co s) →
  flush_to_pending s = Ok s' → KInv a (p_flags s') (p_pending s') (p_co s').
Proof.
  intros D O K H. unfold flush_to_pending in H.
  destruct (fold_left drain_one _ _) as [[[f pend] real]| |] eqn:E; try discriminate. injection H as <-. cbn. by eapply drain_kinv.
Qed.

(** A block all of whose transactions are in the pool: [a] are the nonces of the accounts before it, [a'] those after it, and it
    holds one transaction for every nonce in between, none of which the pool has dropped. *)
Definition full_block (s : pool) (hs : list N) (a a' : N → N) : Prop :=
  ∀ x, a x <= a' x ∧
    (∀ h p, h ∈ hs → p_txmap s !! h = Some p → psender p = x → a x <= pnonce p ∧ pnonce p < a' x) ∧
    (∀ k, a x <= k → k < a' x → ∃ h p, h ∈ hs ∧ p_txmap s !! h = Some p ∧ slot p = (x, k) ∧
       ∀ s1, flush_to_pending s = Ok s1 → ¬ dropped (p_flags s1) p).

Lemma flush_inner_kinv t a a' s s1 hs number s' r :
  DInv (p_txmap s1) (p_next s1) (p_flags s1) (p_pending s1) (p_real s1) [] →
  KInv a (p_flags s1) (p_pending s1) [] → flush_to_pending s = Ok s1 → p_txmap s1 = p_txmap s → full_block s hs a a' →
  flush_inner t s1 hs number = Ok (s', r) → KInv a' (p_flags s') (p_pending s') [].
Proof.
  intros D K ES ET HB H. unfold flush_inner in H.
  destruct (fold_left remove_one hs (p_txmap s1, ∅, 0)) as [[m tips] red] eqn:ER.
  apply remove_all_spec in ER as (_ & M2 & M3 & _); [|intros h p Hp; by apply D in Hp as [? ?]].
  destruct (tip_panics _ _); [discriminate|].
  set (f1 := Flags (tip_dropped (p_pending s1) tips ∪ f_drop (p_flags s1)) (f_pkg (p_flags s1))) in H.
  match type of H with Ok (Pool _ ?x _ _ (filter _ (pq_clear _ <$> _)) _ _ _ _ _, _) = _ => set (f2 := x) in H end.
  assert (∀ p, packaged f2 p ↔ packaged (p_flags s1) p) as HP by done.
  clearbody f2. injection H as <- _. cbn [p_flags p_pending].
  assert (∀ b q', filter (λ kv : N * pq, q_rm kv.2 = false) (pq_clear f2 <$> tip_queues (p_pending s1) tips) !! b = Some q' →
    ∃ q, p_pending s1 !! b = Some q ∧ (∀ n p, q_map q' !! n = Some p → q_map q !! n = Some p) ∧ q_cur q' = a' b ∧ q_cur q = a b ∧
      (∀ k, a b <= k → k < a' b → is_Some (q_map q !! k))) as HQ.
  { intros b q' Hq. apply map_filter_lookup_Some in Hq as [Hq _]. rewrite lookup_fmap in Hq.
    destruct (tip_queues (p_pending s1) tips !! b) as [q1|] eqn:E1; [|done]. cbn in Hq. injection Hq as <-.
    apply tip_queues_spec in E1 as (q & Hb & Em & _ & E1). exists q. split; [done|].
    pose proof (k_cur _ _ _ _ K b q Hb) as Hc. destruct (HB b) as (B1 & B2 & B3). split.
    { intros n p Hn. cbn in Hn. apply map_filter_lookup_Some in Hn as [Hn _]. by rewrite <- Em. }
    cbn [pq_clear q_cur]. split; [|split; [done|]].
    - destruct (tips !! b) as [v|] eqn:Ev.
      + destruct E1 as [-> _]. destruct (M2 _ _ Ev) as (h & p & Hi & Hp & Hs & <-). rewrite ET in Hp.
        destruct (B2 h p Hi Hp Hs). destruct (B3 (a' b - 1)) as (h' & p' & Hi' & Hp' & Hs' & _); [lia|lia|].
        unfold slot in Hs'. injection Hs' as Hs1 Hs2. rewrite <- ET in Hp'. destruct (M3 _ _ Hi' Hp') as (v' & Hv & Hle).
        rewrite Hs1, Ev in Hv. injection Hv as <-. lia.
      + subst q1. rewrite Hc. destruct (decide (a b < a' b)); [|lia].
        destruct (B3 (a b)) as (h' & p' & Hi' & Hp' & Hs' & _); [lia|lia|].
        unfold slot in Hs'. injection Hs' as Hs1 Hs2. rewrite <- ET in Hp'. destruct (M3 _ _ Hi' Hp') as (v' & Hv & Hle). congruence.
    - intros k H1 H2. destruct (B3 k H1 H2) as (h' & p' & Hi' & Hp' & Hs' & HL). unfold slot in Hs'. injection Hs' as Hs1 Hs2.
      rewrite <- ET in Hp'. destruct (d_live _ _ _ _ _ _ D _ _ Hp' (HL _ ES)) as [X|(q0 & X & Y)]; [by apply not_elem_of_nil in X|].
      rewrite Hs1, Hb in X. injection X as <-. rewrite Hs2 in Y. eauto. }
  split.
  - intros b q' Hq. by destruct (HQ _ _ Hq) as (q & _ & _ & ? & _).
  - intros p d Hp. by apply not_elem_of_nil in Hp.
  - intros b q' n p Hq Hk Hn Hp. destruct (HQ _ _ Hq) as (q & Hb & Hm & E1 & E2 & HF). rewrite HP.
    apply (k_off _ _ _ _ K b q n p Hb); [|rewrite E2; pose proof (proj1 (HB b)); lia|by apply Hm].
    intros k H1 H2. rewrite E2 in H1. destruct (decide (k < a' b)); [by apply HF|].
    destruct (Hk k) as [x Hx]; [lia|done|]. eauto.
Qed.

(** Runs in which every account uses each of its nonces once, transactions are checked against the nonce the account has, and
    blocks are made of transactions the pool holds. *)
Inductive steady (c t : N) : (N → N) → list (N * N) → list op → pool → Prop :=
| st_new a : steady c t a [] [] pool_new
| st_insert a u ops s tx l d s' : steady c t a u ops s → d <= t_nonce tx → t_nonce tx - d = a (t_sender tx) →
    (t_sender tx, t_nonce tx) ∉ u → step c t isort s (OInsert tx l d) = Ok s' →
    steady c t a ((t_sender tx, t_nonce tx) :: u) (ops ++ [OInsert tx l d]) s'
| st_again a u ops s tx l d s' : steady c t a u ops s → (is_Some (p_txmap s !! t_hash tx) ∨ pool_insert c s tx l d = Err) →
    step c t isort s (OInsert tx l d) = Ok s' → steady c t a u (ops ++ [OInsert tx l d]) s'
| st_sys a u ops s tx s' : steady c t a u ops s → step c t isort s (OInsertSys tx) = Ok s' → steady c t a u (ops ++ [OInsertSys tx]) s'
| st_package a u ops s g l s' : steady c t a u ops s → step c t isort s (OPackage g l) = Ok s' → steady c t a u (ops ++ [OPackage g l]) s'
| st_refresh a u ops s s' : steady c t a u ops s → step c t isort s ORefresh = Ok s' → steady c t a u (ops ++ [ORefresh]) s'
| st_flush a a' u ops s hs n s' : steady c t a u ops s → full_block s hs a a' →
    step c t isort s (OFlush hs n) = Ok s' → steady c t a' u (ops ++ [OFlush hs n]) s'.

Lemma steady_orderly c t a u ops s : steady c t a u ops s → orderly c t a u ops s.
Proof.
  induction 1 as [a|a u ops s tx l d s' H IH Hd Ht Hu E|a u ops s tx l d s' H IH Hx E|a u ops s tx s' H IH E
    |a u ops s g l s' H IH E|a u ops s s' H IH E|a a' u ops s hs n s' H IH HB E].
  - constructor.
  - eapply or_insert; eauto. lia.
  - eapply or_again; eauto.
  - eapply or_sys; eauto.
  - eapply or_package; eauto.
  - eapply or_refresh; eauto.
  - eapply or_flush; [exact IH|intros x; apply HB| |exact E]. intros h p Hh Hp. by apply (HB (psender p)) with h.
Qed.

Lemma steady_inv c t U SY a u ops s : 0 < c → steady c t a u ops s → Forall (op_ok U SY) ops →
  KInv a (p_flags s) (p_pending s) (p_co s).
Proof.
  intros HC H. induction H as [a|a u ops s tx l d s' H IH Hd Ht Hu E|a u ops s tx l d s' H IH Hx E|a u ops s tx s' H IH E
    |a u ops s g l s' H IH E|a u ops s s' H IH E|a a' u ops s hs n s' H IH HB E]; intros HF.
  { split; cbn; intros *; rewrite ?lookup_empty; try done. intros X. by apply not_elem_of_nil in X. }
  all: apply Forall_app in HF as [HF HO]; specialize (IH HF).
  all: destruct (orderly_inv c t U SY a u ops s HC (steady_orderly _ _ _ _ _ _ H) HF) as (_ & I & v & O & _).
  - cbn in E. destruct (pool_insert c s tx l d) as [s1| |] eqn:EI; try discriminate; injection E as <-; [|done].
    apply (pool_insert_spec c U SY) in EI as (_ & s2 & Hs2 & I2 & ET & _ & EI); [|done|done].
    assert (KInv a (p_flags s2) (p_pending s2) (p_co s2)) as K2.
    { destruct Hs2 as [->|Hs2]; [done|]. by eapply (flush_to_pending_kinv a v s s2 (i_d _ _ _ _ I)). }
    destruct (p_txmap s !! t_hash tx); subst s1; cbn; [done|].
    split; try apply K2. intros p d' Hp. apply elem_of_app in Hp as [Hp|Hp]; [by apply K2|].
    apply elem_of_list_singleton in Hp. injection Hp as -> ->. done.
  - cbn in E. destruct (pool_insert c s tx l d) as [s1| |] eqn:EI; try discriminate; injection E as <-; [|done].
    destruct Hx as [[p0 Hx]|Hx]; [|discriminate].
    apply (pool_insert_spec c U SY) in EI as (_ & s2 & Hs2 & I2 & ET & _ & EI); [|done|done]. rewrite Hx in EI. subst s1. cbn.
    destruct Hs2 as [->|Hs2]; [done|]. by eapply (flush_to_pending_kinv a v s s2 (i_d _ _ _ _ I)).
  - cbn in E. by injection E as <-.
  - cbn in E. destruct (pool_package isort s g l) as [[s1 out]| |] eqn:EP; try discriminate; injection E as <-; [|done].
    unfold pool_package in EP. destruct (sys_package_ok s); [|discriminate]. destruct (bool_decide (p_co s = [])).
    + by injection EP as <- _.
    + destruct (flush_to_pending s) as [s2| |] eqn:Hs2; try discriminate. injection EP as <- _. cbn.
      by eapply (flush_to_pending_kinv a v s s2 (i_d _ _ _ _ I)).
  - cbn in E. by eapply (flush_to_pending_kinv a v s s' (i_d _ _ _ _ I)).
  - cbn [step] in E.
    apply (pool_flush_spec c t U SY) in E as (s1 & s2 & r & hd & b & r2 & E1 & I1 & C1 & E2 & E3 & ->); [|done|done].
    pose proof (flush_to_pending_kinv a v s s1 (i_d _ _ _ _ I) O IH E1) as K1. rewrite C1 in K1.
    destruct (flush_to_pending_inv _ _ (i_d _ _ _ _ I) E1) as (D1 & _ & ET & _).
    pose proof (flush_inner_spec t s1 hs n s2 r D1 C1 E2) as (_ & C2 & _).
    cbn. rewrite C2. by eapply (flush_inner_kinv t a a' s s1 hs n s2 r).
Qed.

(** In every such run a package that is not cut short offers every transaction that can be executed: a live one, all of whose
    predecessors from the nonce of the account on are live. *)
Theorem C111_offered_partial c t a u ops s g l s' hs n p :
  0 < c → steady c t a u ops s → consistent ops → pool_package isort s g l = Ok (s', (hs, n)) → (size (p_txmap s') ≤ l)%nat →
  a (psender p) <= pnonce p → live s' p →
  (∀ k, a (psender p) <= k → k <= pnonce p → ∃ p', live s' p' ∧ psender p' = psender p ∧ pnonce p' = k) →
  phash p ∈ hs.
Proof.
  intros HC H (U & SY & HF) HP HL Hn [L1 L2] Hk.
  destruct (orderly_inv c t U SY a u ops s HC (steady_orderly _ _ _ _ _ _ H) HF) as (_ & I & _).
  assert (KInv a (p_flags s') (p_pending s') (p_co s')) as K.
  { eapply (steady_inv c t U SY a u (ops ++ [OPackage g l])); [done| |].
    - eapply st_package; [exact H|]. cbn. by rewrite HP.
    - apply Forall_app. split; [done|]. repeat constructor. }
  destruct (package_spec c isort U SY isort_perm HC s g l s' hs n I HP) as (user & -> & _ & Eu & I' & C').
  pose proof (i_d _ _ _ _ I') as D. rewrite C' in D.
  assert (∀ p', live s' p' → ∃ q, p_pending s' !! psender p' = Some q ∧ q_map q !! pnonce p' = Some p') as HQ.
  { intros p' [X Y]. destruct (d_live _ _ _ _ _ _ D _ _ X Y) as [Z|Z]; [by apply not_elem_of_nil in Z|done]. }
  destruct (HQ p (conj L1 L2)) as (q & Hq & Hm). pose proof (k_cur _ _ _ _ K _ _ Hq) as Hc.
  assert (packaged (p_flags s') p) as HPk.
  { apply (k_off _ _ _ _ K (psender p) q (pnonce p) p Hq); [|lia|done]. intros k H1 H2. rewrite Hc in H1.
    destruct (Hk k H1 H2) as (p' & Lp & Es & En). destruct (HQ p' Lp) as (q' & Hq' & Hm'). rewrite Es, Hq in Hq'. injection Hq' as <-.
    rewrite En in Hm'. eauto. }
  pose proof (d_pkg _ _ _ _ _ _ D _ _ L1 L2 HPk) as HR.
  apply elem_of_app. right. apply elem_of_list_fmap. exists p. split; [done|]. rewrite Eu, take_ge.
  - apply elem_of_list_filter. split; [|done]. by apply is_dropped_false.
  - etransitivity; [apply filter_length|]. etransitivity; [|exact HL].
    assert (NoDup (phash <$> p_real s')) as N1.
    { apply NoDup_fmap_2_strong; [|apply D]. intros x y Hx Hy E.
      apply (d_real _ _ _ _ _ _ D) in Hx as [Hx _]. apply (d_real _ _ _ _ _ _ D) in Hy as [Hy _]. congruence. }
    rewrite <- (fmap_length phash (p_real s')). rewrite <- (size_dom (D:=gset N)).
    rewrite <- (size_list_to_set (C:=gset N) (phash <$> p_real s')) by done.
    apply subseteq_size. intros h Hh. apply elem_of_list_to_set, elem_of_list_fmap in Hh as (r & -> & Hr).
    apply (d_real _ _ _ _ _ _ D) in Hr as [Hr _]. apply elem_of_dom. eauto.
Qed.
Print Assumptions C111_offered_partial.

Definition is_live (s : pool) (p : ptr) : bool := bool_decide (p_txmap s !! phash p = Some p) && negb (is_dropped (p_flags s) p).
Lemma is_live_ok s p : is_live s p = true → live s p.
Proof.
  unfold is_live, live. intros H. apply andb_true_iff in H as [H1 H2]. apply bool_decide_eq_true in H1. apply negb_true_iff in H2.
  split; [done|]. by apply is_dropped_false.
Qed.

(** As in [C14_orderly_ex]: a block has taken nonce 0 of sender 7, whose nonces 1, 2 and 3 are live and offered. *)
Example C111_ex : ∃ u ops s s', steady 100 20 a1 u ops s ∧ consistentb ops = true ∧
  pool_package isort s 0 10 = Ok (s', ([5; 2; 3; 6], 0)) ∧ (size (p_txmap s') ≤ 10)%nat ∧
  live s' (Ptr 0 (T 2 7 1 7)) ∧ live s' (Ptr 2 (T 3 7 2 9)) ∧ live s' (Ptr 4 (T 6 7 3 1)).
Proof.
  assert (∃ u ops s s', steady 100 20 a0 u ops s ∧ consistentb (ops ++ [OFlush [1] 1; OInsert (T 6 7 3 1) true 2]) = true ∧
    step 100 20 isort s (OFlush [1] 1) = Ok s' ∧
    (∃ s'' sp, step 100 20 isort s' (OInsert (T 6 7 3 1) true 2) = Ok s'' ∧ pool_package isort s'' 0 10 = Ok (sp, ([5; 2; 3; 6], 0)) ∧
      ((size (p_txmap sp) <=? 10)%nat && is_live sp (Ptr 0 (T 2 7 1 7)) && is_live sp (Ptr 2 (T 3 7 2 9)) && is_live sp (Ptr 4 (T 6 7 3 1))) = true) ∧
    (7, 3) ∉ u ∧ p_txmap s !! 1 = Some (Ptr 1 (T 1 7 0 9)) ∧
    match flush_to_pending s with Ok s1 => is_dropped (p_flags s1) (Ptr 1 (T 1 7 0 9)) | _ => true end = false)
    as (u & ops & s & s' & R & C & E & (s'' & sp & E2 & E3 & E4) & Hu & Hp & Hl).
  { eexists _, _, _, _. split.
    { eapply (st_package _ _ _ _ _ _ 0 10); [eapply (st_insert _ _ _ _ _ _ (T 5 8 0 5) true 0); [eapply (st_insert _ _ _ _ _ _ (T 3 7 2 9) true 2);
       [eapply (st_insert _ _ _ _ _ _ (T 1 7 0 9) true 0); [eapply (st_insert _ _ _ _ _ _ (T 2 7 1 7) true 1); [apply (st_new 100 20 a0)
        |cbn; lia|reflexivity|cbn; set_solver|vm_compute; reflexivity]
        |cbn; lia|reflexivity|cbn; set_solver|vm_compute; reflexivity]
        |cbn; lia|reflexivity|cbn; set_solver|vm_compute; reflexivity]
        |cbn; lia|reflexivity|cbn; set_solver|vm_compute; reflexivity]
        |vm_compute; reflexivity]. }
    split; [vm_compute; reflexivity|]. split; [vm_compute; reflexivity|].
    split; [do 2 eexists; split; [|split]; vm_compute; reflexivity|].
    split; [cbn; set_solver|]. split; vm_compute; reflexivity. }
  do 4 eexists. split; [|split; [|split; [exact E3|]]].
  - eapply (st_insert _ _ _ _ _ _ (T 6 7 3 1) true 2); [|cbn; lia|reflexivity|exact Hu|exact E2].
    eapply (st_flush _ _ a0 a1); [exact R| |exact E]. intros x. unfold a0, a1. split; [lia|]. split.
    + intros h p Hh Hp2 <-. apply elem_of_list_singleton in Hh as ->. rewrite Hp in Hp2. injection Hp2 as <-. by vm_compute.
    + intros k H1 H2. destruct (x =? 7) eqn:Ex; [|lia]. apply N.eqb_eq in Ex as ->. assert (k = 0) as -> by lia.
      exists 1, (Ptr 1 (T 1 7 0 9)). split; [by apply elem_of_list_singleton|]. split; [exact Hp|]. split; [done|].
      intros s1 Hs1. rewrite Hs1 in Hl. by apply is_dropped_false.
  - by rewrite <- app_assoc.
  - apply andb_true_iff in E4 as [E4 E8]. apply andb_true_iff in E4 as [E4 E7]. apply andb_true_iff in E4 as [E5 E6].
    apply Nat.leb_le in E5. split; [done|]. split; [|split]; by apply is_live_ok.
Qed.

(** A transaction that timed out and is sent again is not offered, although it and the ones before it are live. *)
Theorem C111_resent_refuted : ∃ ops s s' hs n p0 p1, reachable 100 2 isort ops s ∧ one_per_place ops ∧
  pool_package isort s 0 10 = Ok (s', (hs, n)) ∧ live s' p0 ∧ live s' p1 ∧ slot p0 = (7, 0) ∧ slot p1 = (7, 1) ∧
  Forall (λ o, ∀ h k, o = OFlush h k → h = []) ops ∧ length hs = 3%nat ∧ phash p1 ∉ hs.
Proof.
  exists resent.
  destruct (run2_package resent (λ s' hs, bool_decide (hs = [2; 3; 4]) && is_live s' (Ptr 1 (T 2 7 0 1)) && is_live s' (Ptr 4 (T 1 7 1 10))))
    as (s & s' & hs & n & H1 & H2 & H3 & H4); [vm_compute; reflexivity|].
  exists s, s', hs, n, (Ptr 1 (T 2 7 0 1)), (Ptr 4 (T 1 7 1 10)). apply andb_true_iff in H4 as [H4 H5]. apply andb_true_iff in H4 as [H4 H6].
  apply bool_decide_eq_true in H4. subst hs. split; [done|]. split; [done|]. split; [done|]. split; [by apply is_live_ok|].
  split; [by apply is_live_ok|]. split; [done|]. split; [done|]. split; [|split; [done|cbn; set_solver]].
  repeat constructor; intros h k [=]; done.
Qed.
Print Assumptions C111_resent_refuted.

(** Nor is a transaction whose predecessor came with a block, without having been in the pool, as when blocks are fetched from
    a peer: after a block with the nonces 0 and 1 of sender 7 the transaction with nonce 2, live and next in turn, is left
    out of the package until the sender sends another one. *)
Definition outside : list ptx := [T 1 7 0 9; T 9 7 1 9].
Theorem C111_block_refuted : ∃ ops s s' hs n p, reachable 100 2 isort (ops ++ [OFlush (t_hash <$> outside) 1]) s ∧
  one_per_place ops ∧ Forall (λ o, ∃ tx l d, o = OInsert tx l d ∧ d = t_nonce tx) ops ∧
  pool_package isort s 0 10 = Ok (s', (hs, n)) ∧ live s' p ∧ psender p = 7 ∧ pnonce p = 2 ∧
  (∀ tx, tx ∈ outside → t_sender tx = 7 ∧ t_nonce tx < 2) ∧ (∀ k, k < 2 → ∃ tx, tx ∈ outside ∧ t_nonce tx = k) ∧ hs = [].
Proof.
  exists [OInsert (T 1 7 0 9) true 0; OInsert (T 3 7 2 5) true 2].
  destruct (run2_package ([OInsert (T 1 7 0 9) true 0; OInsert (T 3 7 2 5) true 2] ++ [OFlush (t_hash <$> outside) 1])
    (λ s' hs, bool_decide (hs = []) && is_live s' (Ptr 1 (T 3 7 2 5)))) as (s & s' & hs & n & H1 & H2 & H3 & H4); [vm_compute; reflexivity|].
  exists s, s', hs, n, (Ptr 1 (T 3 7 2 5)). apply andb_true_iff in H4 as [H4 H5]. apply bool_decide_eq_true in H4.
  split; [done|]. split; [apply one_per_placeb_ok; vm_compute; reflexivity|].
  split. { repeat constructor; do 3 eexists; split; reflexivity. }
  split; [done|]. split; [by apply is_live_ok|]. split; [done|]. split; [done|]. split.
  { intros tx [->|[->|X]%elem_of_cons]%elem_of_cons; [cbn; lia|cbn; lia|by apply not_elem_of_nil in X]. }
  split; [|done]. intros k Hk. assert (k = 0 ∨ k = 1) as [->| ->] by lia.
  - exists (T 1 7 0 9). split; [set_solver|done].
  - exists (T 9 7 1 9). split; [set_solver|done].
Qed.
Print Assumptions C111_block_refuted.
