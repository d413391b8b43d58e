(** Why transactions are dropped while the queue of fresh transactions is drained. *)
From Verif Require Import TxModel PoolModel PoolProofs.

(** A queue only grows during a drain: more entries, higher tip, and a slot once taken stays
    taken, by the same transaction or by one with a strictly higher price. *)
Definition q_grows (q q' : pq) : Prop :=
  (size (q_map q) ≤ size (q_map q'))%nat ∧ q_cur q <= q_cur q' ∧
  ∀ n p, q_map q !! n = Some p → ∃ p', q_map q' !! n = Some p' ∧ (p' = p ∨ pprice p < pprice p').
Definition pend_grows (pend pend' : gmap N pq) : Prop :=
  ∀ a q, pend !! a = Some q → ∃ q', pend' !! a = Some q' ∧ q_grows q q'.

Lemma q_grows_refl q : q_grows q q.
Proof. split; [lia|]. split; [lia|]. intros n p H. exists p. split; [done|by left]. Qed.
Lemma q_grows_trans q1 q2 q3 : q_grows q1 q2 → q_grows q2 q3 → q_grows q1 q3.
Proof.
  intros (A & B & C) (A' & B' & C'). split; [lia|]. split; [lia|]. intros n p H.
  destruct (C n p H) as (p' & H' & L). destruct (C' n p' H') as (p'' & H'' & L'). exists p''. split; [done|].
  destruct L as [->|L]; destruct L' as [->|L']; auto; right; lia.
Qed.
Lemma pend_grows_refl p : pend_grows p p.
Proof. intros a q H. exists q. split; [done|apply q_grows_refl]. Qed.
Lemma pend_grows_trans p1 p2 p3 : pend_grows p1 p2 → pend_grows p2 p3 → pend_grows p1 p3.
Proof.
  intros A B a q H. destruct (A a q H) as (q' & H' & G). destruct (B a q' H') as (q'' & H'' & G').
  exists q''. split; [done|]. by eapply q_grows_trans.
Qed.
Lemma pend_grows_insert pend a q' :
  q_grows (default pq_default (pend !! a)) q' → pend_grows pend (<[a := q']> pend).
Proof.
  intros G a' q H. destruct (decide (a' = a)) as [->|].
  - exists q'. rewrite lookup_insert. split; [done|]. by rewrite H in G.
  - exists q. rewrite lookup_insert_ne by done. split; [done|apply q_grows_refl].
Qed.

(** The reasons, read off the queues after the drain. *)
Definition lost_slot (pend' : gmap N pq) (p : ptr) : Prop :=
  ∃ q p', pend' !! psender p = Some q ∧ q_map q !! pnonce p = Some p' ∧ p' ≠ p ∧ pprice p <= pprice p'.
Definition account_full (pend' : gmap N pq) (p : ptr) : Prop :=
  ∃ q, pend' !! psender p = Some q ∧ (64 < size (q_map q))%nat.
Definition nonce_stale (pend' : gmap N pq) (p : ptr) : Prop :=
  ∃ q, pend' !! psender p = Some q ∧ pnonce p < q_cur q.
Definition drop_reason pend' p : Prop := lost_slot pend' p ∨ account_full pend' p ∨ nonce_stale pend' p.

(** One queue insertion followed by the search. *)
Lemma pq_step_spec f q tx d real f1 q1 push f2 q2 real2 :
  pq_insert f q tx d = Ok (f1, q1, push) →
  pq_try_search f1 q1 (if push then real ++ [tx] else real) = Ok (f2, q2, real2) →
  q_grows q q2 ∧
  (∀ i, i ∈ f_drop f → i ∈ f_drop f2) ∧
  (∀ i, i ∈ f_drop f2 → i ∉ f_drop f →
     (i = pt_id tx ∧ (pnonce tx < q_cur q2 ∨ ∃ old, q_map q !! pnonce tx = Some old ∧ q_map q2 !! pnonce tx = Some old ∧ pprice tx <= pprice old)) ∨
     ∃ old, i = pt_id old ∧ q_map q !! pnonce tx = Some old ∧ q_map q2 !! pnonce tx = Some tx ∧ pprice old < pprice tx).
Proof.
  intros H1 H2.
  unfold pq_try_search in H2. destruct (pq_search _ f1 (q_map q1) (q_pop q1) _) as [[[f' c'] out']| |] eqn:E; try discriminate.
  apply pq_search_spec in E as (new & _ & HD & _). injection H2 as <- <- <-.
  unfold pq_insert in H1. destruct (pnonce tx <? d); [discriminate|].
  destruct (pnonce tx <? q_cur q) eqn:E2.
  { injection H1 as <- <- <-. cbn in *. split; [split; [cbn; lia|split; [cbn; lia|cbn]]; intros n p Hp; exists p; split; [done|by left]|].
    rewrite HD. cbn. split; [set_solver|]. intros i [Hi|Hi]%elem_of_union Hn; [|done]. left.
    apply elem_of_singleton in Hi. split; [done|]. left. by apply N.ltb_lt. }
  set (q' := if q_cur q <? pnonce tx - d then _ else q) in *.
  assert (q_map q' = q_map q) as Hq' by (subst q'; by destruct (q_cur q <? pnonce tx - d)).
  assert (q_cur q <= q_cur q') as Hc'.
  { subst q'. destruct (q_cur q <? pnonce tx - d) eqn:E3; [apply N.ltb_lt in E3; cbn; lia|lia]. }
  rewrite Hq' in H1. destruct (q_map q !! pnonce tx) as [old|] eqn:EO.
  - destruct (pprice old <? pprice tx) eqn:EP.
    + apply N.ltb_lt in EP.
      assert (q1 = PQ (<[pnonce tx := tx]> (q_map q)) (q_pop q') (q_cur q') (q_rm q') ∧ f_drop f1 = {[pt_id old]} ∪ f_drop f) as [-> Hf].
      { destruct (is_package _ old); by injection H1 as <- <- <-. }
      cbn. split; [split; [|split; [done|]]|].
      * cbn. by rewrite map_size_insert_Some.
      * cbn. intros n p Hp. destruct (decide (n = pnonce tx)) as [->|].
        -- rewrite lookup_insert. exists tx. split; [done|]. assert (p = old) as -> by congruence. by right.
        -- rewrite lookup_insert_ne by done. exists p. split; [done|by left].
      * rewrite HD, Hf. split; [set_solver|]. intros i [Hi|Hi]%elem_of_union Hn; [|done]. right.
        apply elem_of_singleton in Hi. exists old. rewrite lookup_insert. auto.
    + apply N.ltb_ge in EP. injection H1 as <- <- <-. cbn in *. rewrite Hq'. split; [split; [cbn; lia|split; [done|]]|].
      * cbn. intros n p Hp. exists p. split; [done|by left].
      * rewrite HD. cbn. split; [set_solver|]. intros i [Hi|Hi]%elem_of_union Hn; [|done]. left.
        apply elem_of_singleton in Hi. split; [done|]. right. exists old. auto.
  - injection H1 as <- <- <-. cbn in *. split; [split; [cbn|split; [done|]]|].
    + rewrite map_size_insert_None by done. lia.
    + cbn. intros n p Hp. rewrite lookup_insert_ne by congruence. exists p. split; [done|by left].
    + rewrite HD. set_solver.
Qed.

Lemma drain_one_loss tm nx f pend real co tx d f' pend' real' :
  DInv tm nx f pend real ((tx, d) :: co) →
  drain_one (Ok (f, pend, real)) (tx, d) = Ok (f', pend', real') →
  pend_grows pend pend' ∧ (∀ i, i ∈ f_drop f → i ∈ f_drop f') ∧
  (∀ p, tm !! phash p = Some p → ¬ dropped f p → dropped f' p → drop_reason pend' p).
Proof.
  intros D H. cbn [drain_one fst snd] in H.
  destruct (d_co _ _ _ _ _ _ D tx) as (HTx & _); [cbn; set_solver|].
  assert (∀ p, tm !! phash p = Some p → pt_id p = pt_id tx → p = tx) as Hid
    by (intros p Hp; by eapply (d_ids _ _ _ _ _ _ D)).
  set (q := default pq_default (pend !! psender tx)) in *.
  destruct (64 <? size (q_map q))%nat eqn:EL.
  { injection H as <- <- <-. apply Nat.ltb_lt in EL. split; [|split].
    - apply pend_grows_insert, q_grows_refl.
    - cbn. set_solver.
    - intros p Hp Hn Hd. apply dropped_set in Hd as [Hd|Hd]; [|done]. apply Hid in Hd as ->; [|done].
      right. left. exists q. by rewrite lookup_insert. }
  destruct (pq_insert f q tx d) as [[[f1 q1] push]| |] eqn:EI; try discriminate.
  destruct (pq_try_search f1 q1 _) as [[[f2 q2] real2]| |] eqn:ES; try discriminate.
  injection H as <- <- <-. destruct (pq_step_spec _ _ _ _ _ _ _ _ _ _ _ EI ES) as (G & M & L).
  split; [by apply pend_grows_insert|]. split; [done|].
  intros p Hp Hn Hd. destruct (L (pt_id p) Hd Hn) as [[Hi Hc]|(old & Hi & Ho & Ho2 & Hpr)].
  - apply Hid in Hi as ->; [|done]. destruct Hc as [Hc|(old & Ho & Ho2 & Hpr)].
    + right. right. exists q2. by rewrite lookup_insert.
    + left. exists q2, old. rewrite lookup_insert. repeat split; auto. intros ->.
      destruct (pend !! psender tx) as [q0|] eqn:E0; [|by cbn in Ho; rewrite lookup_empty in Ho].
      destruct (d_pend _ _ _ _ _ _ D _ _ _ _ E0 Ho) as (_ & _ & _ & _ & X). cbn in X. set_solver.
  - destruct (pend !! psender tx) as [q0|] eqn:E0; [|by cbn in Ho; rewrite lookup_empty in Ho].
    destruct (d_pend _ _ _ _ _ _ D _ _ _ _ E0 Ho) as (X1 & X2 & X3 & _ & X4).
    assert (p = old) as -> by (by eapply (d_ids _ _ _ _ _ _ D)).
    left. exists q2, tx. rewrite X2, lookup_insert, X3. repeat split; [done| |lia].
    intros ->. cbn in X4. set_solver.
Qed.

Lemma drop_reason_grows pend pend' p : pend_grows pend pend' → drop_reason pend p →
  (∀ q, pend' !! psender p = Some q → q_map q !! pnonce p ≠ Some p) →
  drop_reason pend' p.
Proof.
  intros G [(q & p' & Hq & Hp & Hne & Hpr)|[(q & Hq & Hs)|(q & Hq & Hs)]] Hnot.
  - destruct (G _ _ Hq) as (q' & Hq' & (_ & _ & Hg)). destruct (Hg _ _ Hp) as (p'' & Hp'' & Hpr').
    left. exists q', p''. repeat split; auto.
    + intros ->. by eapply Hnot.
    + destruct Hpr' as [->|]; lia.
  - destruct (G _ _ Hq) as (q' & Hq' & (Hg & _)). right. left. exists q'. split; [done|lia].
  - destruct (G _ _ Hq) as (q' & Hq' & (_ & Hg & _)). right. right. exists q'. split; [done|lia].
Qed.

Lemma drain_loss tm nx co f pend real f' pend' real' :
  DInv tm nx f pend real co →
  fold_left drain_one co (Ok (f, pend, real)) = Ok (f', pend', real') →
  pend_grows pend pend' ∧ (∀ i, i ∈ f_drop f → i ∈ f_drop f') ∧
  (∀ p, tm !! phash p = Some p → ¬ dropped f p → dropped f' p → drop_reason pend' p).
Proof.
  revert f pend real. induction co as [|[tx d] co IH]; intros f pend real D H.
  - cbn in H. simplify_eq. split; [apply pend_grows_refl|]. split; [done|]. done.
  - cbn [fold_left] in H.
    destruct (drain_one (Ok (f, pend, real)) (tx, d)) as [[[f1 pend1] real1]| |] eqn:E;
      [|rewrite drain_fail in H by auto; discriminate|rewrite drain_fail in H by auto; discriminate].
    destruct (drain_one_loss _ _ _ _ _ _ _ _ _ _ _ D E) as (G1 & M1 & L1).
    pose proof (drain_one_inv _ _ _ _ _ _ _ _ _ _ _ D E) as D1.
    destruct (IH _ _ _ D1 H) as (G2 & M2 & L2).
    pose proof (drain_inv _ _ _ _ _ _ _ _ _ D1 H) as D2.
    split; [by eapply pend_grows_trans|]. split; [auto|].
    intros p Hp Hn Hd. destruct (decide (pt_id p ∈ f_drop f1)) as [Hd1|Hd1]; [|by apply L2].
    eapply drop_reason_grows; [done|by apply L1|].
    intros q Hq Hs. destruct (d_pend _ _ _ _ _ _ D2 _ _ _ _ Hq Hs) as (_&_&_&X&_). done.
Qed.
