(** Invariants of the transaction pool. *)
From Verif Require Import TxModel PoolModel.

Definition dropped (f : flags) (p : ptr) : Prop := pt_id p ∈ f_drop f.
Definition packaged (f : flags) (p : ptr) : Prop := pt_id p ∈ f_pkg f.

Lemma is_dropped_true f p : is_dropped f p = true ↔ dropped f p.
Proof. apply bool_decide_eq_true. Qed.
Lemma is_dropped_false f p : is_dropped f p = false ↔ ¬ dropped f p.
Proof. apply bool_decide_eq_false. Qed.
Lemma is_package_true f p : is_package f p = true ↔ packaged f p.
Proof. apply bool_decide_eq_true. Qed.
Lemma is_package_false f p : is_package f p = false ↔ ¬ packaged f p.
Proof. apply bool_decide_eq_false. Qed.
Lemma dropped_set f p r : dropped (set_dropped f r) p ↔ pt_id p = pt_id r ∨ dropped f p.
Proof. unfold dropped, set_dropped. cbn. set_solver. Qed.
Lemma packaged_set f p r : packaged (set_package f r) p ↔ pt_id p = pt_id r ∨ packaged f p.
Proof. unfold packaged, set_package. cbn. set_solver. Qed.
Lemma dropped_set_package f p r : dropped (set_package f r) p ↔ dropped f p.
Proof. reflexivity. Qed.
Lemma packaged_set_dropped f p r : packaged (set_dropped f r) p ↔ packaged f p.
Proof. reflexivity. Qed.

(* ---------------------------------------------------------------- *)
(** * The drain loop *)
Record DInv (tm : gmap N ptr) (nx : N) (f : flags) (pend : gmap N pq) (real : list ptr)
    (co : list (ptr * N)) : Prop := {
  d_txmap : ∀ h p, tm !! h = Some p → phash p = h ∧ pt_id p < nx;
  d_ids : ∀ h1 h2 p1 p2, tm !! h1 = Some p1 → tm !! h2 = Some p2 → pt_id p1 = pt_id p2 → p1 = p2;
  d_co : ∀ p, p ∈ co.*1 → tm !! phash p = Some p ∧ ¬ dropped f p ∧ ¬ packaged f p;
  d_co_nodup : NoDup (co.*1);
  d_real : ∀ p, p ∈ real → tm !! phash p = Some p ∧ packaged f p;
  d_real_nodup : NoDup real;
  d_pend : ∀ a q n p, pend !! a = Some q → q_map q !! n = Some p →
    tm !! phash p = Some p ∧ psender p = a ∧ pnonce p = n ∧ ¬ dropped f p ∧ p ∉ co.*1;
  d_live : ∀ h p, tm !! h = Some p → ¬ dropped f p →
    p ∈ co.*1 ∨ ∃ q, pend !! psender p = Some q ∧ q_map q !! pnonce p = Some p;
  d_pkg : ∀ h p, tm !! h = Some p → ¬ dropped f p → packaged f p → p ∈ real;
  d_flags : ∀ i, i ∈ f_drop f ∨ i ∈ f_pkg f → i < nx;
  d_len : ∀ a q, pend !! a = Some q → (size (q_map q) ≤ 65)%nat;
  d_rm : ∀ a q, pend !! a = Some q → q_rm q = false;
}.

(** What one search does, independently of the pool. *)
Lemma pq_search_spec k f m c out f' c' out' :
  pq_search k f m c out = Ok (f', c', out') →
  ∃ new, out' = out ++ new ∧ f_drop f' = f_drop f ∧
    (∀ i, i ∈ f_pkg f' ↔ i ∈ f_pkg f ∨ i ∈ pt_id <$> new) ∧ NoDup (pt_id <$> new) ∧
    (∀ v, v ∈ new → ¬ packaged f v ∧ ∃ n, c <= n ∧ n < c' ∧ m !! n = Some v) ∧
    c <= c' ∧ (∀ n, c <= n → n < c' → ∃ v, m !! n = Some v ∧ packaged f' v).
Proof.
  revert f c out. induction k as [|k IH]; intros f c out; cbn [pq_search].
  - intros [= <- <- <-]. exists []. rewrite app_nil_r. cbn. repeat split; try set_solver; try lia. constructor.
  - destruct (m !! c) as [v|] eqn:E.
    2:{ intros [= <- <- <-]. exists []. rewrite app_nil_r. cbn. repeat split; try set_solver; try lia. constructor. }
    destruct (c =? U64_MAX) eqn:EM; [discriminate|].
    destruct (is_package f v) eqn:EP; intros H; apply IH in H as (new & -> & HD & HP & HN & HV & HC & HA).
    + apply is_package_true in EP. exists new. split; [done|]. split; [done|]. split; [done|]. split; [done|].
      split; [|split; [lia|]].
      * intros w Hw. destruct (HV w Hw) as (? & n & ? & ? & ?). split; [done|]. exists n. repeat split; auto; lia.
      * intros n Hn Hn'. destruct (decide (n = c)) as [->|].
        -- exists v. split; [done|]. unfold packaged. apply HP. by left.
        -- apply HA; lia.
    + apply is_package_false in EP. exists (v :: new). rewrite <- app_assoc. split; [done|].
      split; [exact HD|]. split.
      { intros i. rewrite HP. unfold set_package; cbn. set_solver. }
      split.
      { cbn. constructor; [|done]. intros Hin. apply elem_of_list_fmap in Hin as (w & Hw1 & Hw2).
        apply HV in Hw2 as [Hw2 _]. apply Hw2. apply packaged_set. left. done. }
      split; [|split; [lia|]].
      * intros w [->|Hw]%elem_of_cons.
        -- split; [done|]. exists c. repeat split; auto; lia.
        -- destruct (HV w Hw) as (HNP & n & ? & ? & ?). split.
           ++ intros X. apply HNP. apply packaged_set. by right.
           ++ exists n. repeat split; auto; lia.
      * intros n Hn Hn'. destruct (decide (n = c)) as [->|].
        -- exists v. split; [done|]. unfold packaged. apply HP. left. unfold set_package; cbn. set_solver.
        -- apply HA; lia.
Qed.

Lemma search_inv tm nx f pend real co a q f2 q2 real2 :
  DInv tm nx f pend real co → pend !! a = Some q →
  pq_try_search f q real = Ok (f2, q2, real2) →
  DInv tm nx f2 (<[a := q2]> pend) real2 co ∧ q_map q2 = q_map q ∧ q_cur q2 = q_cur q ∧ q_rm q2 = q_rm q ∧ f_drop f2 = f_drop f.
Proof.
  intros D Ha H. unfold pq_try_search in H.
  destruct (pq_search _ f (q_map q) (q_pop q) real) as [[[f' c'] out']| |] eqn:E; try discriminate.
  injection H as <- <- <-. cbn [q_map q_cur q_rm].
  apply pq_search_spec in E as (new & -> & HD & HP & HN & HV & HC & HA).
  assert (∀ p, dropped f' p ↔ dropped f p) as HDr by (intros; unfold dropped; by rewrite HD).
  assert (∀ v, v ∈ new → tm !! phash v = Some v ∧ ¬ dropped f v ∧ v ∉ co.*1) as HT.
  { intros v Hv. destruct (HV v Hv) as (_ & n & _ & _ & Hn).
    destruct (d_pend _ _ _ _ _ _ D a q n v Ha Hn) as (?&?&?&?&?). auto. }
  split; [|done]. split.
  - apply D.
  - apply D.
  - intros p Hp. destruct (d_co _ _ _ _ _ _ D p Hp) as (? & ? & ?). split; [done|]. rewrite HDr. split; [done|].
    unfold packaged. rewrite HP. intros [?|Hi]; [done|].
    apply elem_of_list_fmap in Hi as (v & Hv1 & Hv2). destruct (HT v Hv2) as (Hv3 & _ & Hv4).
    apply Hv4. by rewrite <- (d_ids _ _ _ _ _ _ D _ _ _ _ H Hv3 Hv1).
  - apply D.
  - intros p [Hp|Hp]%elem_of_app.
    + destruct (d_real _ _ _ _ _ _ D p Hp). split; [done|]. apply HP. by left.
    + split; [by apply HT|]. apply HP. right. apply elem_of_list_fmap. eauto.
  - apply NoDup_app. split; [apply D|]. split.
    + intros p Hp Hp2. destruct (d_real _ _ _ _ _ _ D p Hp). by destruct (HV p Hp2).
    + by eapply NoDup_fmap_1.
  - intros a' q' n p Hq' Hp. destruct (decide (a' = a)) as [->|].
    + rewrite lookup_insert in Hq'. injection Hq' as <-. cbn in Hp. rewrite HDr. by eapply D.
    + rewrite lookup_insert_ne in Hq' by done. rewrite HDr. by eapply D.
  - intros h p Hp Hl. rewrite HDr in Hl. destruct (d_live _ _ _ _ _ _ D h p Hp Hl) as [?|(q' & Hq' & Hp')]; [by left|right].
    destruct (decide (psender p = a)) as [E|].
    + exists (PQ (q_map q) c' (q_cur q) (q_rm q)). rewrite E, lookup_insert. split; [done|]. cbn. congruence.
    + exists q'. by rewrite lookup_insert_ne.
  - intros h p Hp Hl Hk. rewrite HDr in Hl. apply HP in Hk as [Hk|Hk].
    + apply elem_of_app. left. by eapply D.
    + apply elem_of_app. right. apply elem_of_list_fmap in Hk as (v & Hv1 & Hv2).
      destruct (HT v Hv2) as (Hv3 & _). by rewrite (d_ids _ _ _ _ _ _ D _ _ _ _ Hp Hv3 Hv1).
  - intros i [Hi|Hi]; [rewrite HD in Hi; apply (d_flags _ _ _ _ _ _ D); by left|].
    apply HP in Hi as [Hi|Hi]; [apply (d_flags _ _ _ _ _ _ D); by right|].
    apply elem_of_list_fmap in Hi as (v & -> & Hv2). destruct (HT v Hv2) as (Hv3 & _).
    by apply (d_txmap _ _ _ _ _ _ D) in Hv3 as [_ ?].
  - intros a' q' Hq'. destruct (decide (a' = a)) as [->|].
    + rewrite lookup_insert in Hq'. injection Hq' as <-. cbn. by eapply D.
    + rewrite lookup_insert_ne in Hq' by done. by eapply D.
  - intros a' q' Hq'. destruct (decide (a' = a)) as [->|].
    + rewrite lookup_insert in Hq'. injection Hq' as <-. cbn. by eapply D.
    + rewrite lookup_insert_ne in Hq' by done. by eapply D.
Qed.

(** Dropping the transaction at the head of the queue. *)
Lemma drop_head_inv tm nx f pend real co tx d a q :
  DInv tm nx f pend real ((tx, d) :: co) → default pq_default (pend !! a) = q →
  ∀ q1, q_map q1 = q_map q → q_rm q1 = q_rm q →
  DInv tm nx (set_dropped f tx) (<[a := q1]> pend) real co.
Proof.
  intros D Hq q1 Hm Hr.
  assert (tm !! phash tx = Some tx ∧ ¬ dropped f tx ∧ ¬ packaged f tx) as (HTx & HTd & HTp)
    by (apply (d_co _ _ _ _ _ _ D); set_solver).
  pose proof (d_co_nodup _ _ _ _ _ _ D) as ND. cbn in ND. apply NoDup_cons in ND as [NIn ND].
  assert (∀ p, tm !! phash p = Some p → pt_id p = pt_id tx → p = tx) as Hid
    by (intros p Hp; by eapply (d_ids _ _ _ _ _ _ D)).
  assert (∀ a' q' n p, <[a:=q1]> pend !! a' = Some q' → q_map q' !! n = Some p →
    ∃ q0, pend !! a' = Some q0 ∧ q_map q0 !! n = Some p) as Hlk.
  { intros a' q' n p Hq' Hp. destruct (decide (a' = a)) as [->|].
    - rewrite lookup_insert in Hq'. injection Hq' as <-. rewrite Hm, <- Hq in Hp.
      destruct (pend !! a) as [q0|]; cbn in Hp; [eauto|by rewrite lookup_empty in Hp].
    - rewrite lookup_insert_ne in Hq' by done. eauto. }
  split.
  - apply D.
  - apply D.
  - intros p Hp. destruct (d_co _ _ _ _ _ _ D p) as (? & ? & ?); [cbn; set_solver|].
    split; [done|]. split; [|done]. rewrite dropped_set. intros [Hi|?]; [|done].
    apply NIn. by rewrite <- (Hid p).
  - done.
  - apply D.
  - apply D.
  - intros a' q' n p Hq' Hp. destruct (Hlk a' q' n p Hq' Hp) as (q0 & H0 & H1).
    destruct (d_pend _ _ _ _ _ _ D a' q0 n p H0 H1) as (?&?&?&?&HN). cbn in HN.
    apply not_elem_of_cons in HN as [HN1 HN2]. repeat split; auto.
    rewrite dropped_set. intros [Hi|?]; [|done]. by apply HN1, Hid.
  - intros h p Hp Hl. rewrite dropped_set in Hl.
    assert (pt_id p ≠ pt_id tx ∧ ¬ dropped f p) as [Hl1 Hl2] by tauto.
    destruct (d_live _ _ _ _ _ _ D h p Hp Hl2) as [Hc|(q' & Hq' & Hp')].
    + cbn in Hc. apply elem_of_cons in Hc as [->|?]; [done|by left].
    + right. destruct (decide (psender p = a)) as [E|].
      * exists q1. rewrite E, lookup_insert. split; [done|]. rewrite Hm, <- Hq, <- E, Hq'. done.
      * exists q'. by rewrite lookup_insert_ne.
  - intros h p Hp Hl Hk. rewrite dropped_set in Hl. eapply (d_pkg _ _ _ _ _ _ D); eauto.
  - intros i [Hi|Hi]; [|apply (d_flags _ _ _ _ _ _ D); by right].
    cbn in Hi. apply elem_of_union in Hi as [Hi|Hi].
    + apply elem_of_singleton in Hi as ->. by apply (d_txmap _ _ _ _ _ _ D) in HTx as [_ ?].
    + apply (d_flags _ _ _ _ _ _ D). by left.
  - intros a' q' Hq'. destruct (decide (a' = a)) as [->|].
    + rewrite lookup_insert in Hq'. injection Hq' as <-. rewrite Hm, <- Hq.
      destruct (pend !! a) as [q0|] eqn:E0; cbn; [by eapply D|rewrite map_size_empty; lia].
    + rewrite lookup_insert_ne in Hq' by done. by eapply D.
  - intros a' q' Hq'. destruct (decide (a' = a)) as [->|].
    + rewrite lookup_insert in Hq'. injection Hq' as <-. rewrite Hr, <- Hq.
      destruct (pend !! a) as [q0|] eqn:E0; cbn; [by eapply D|done].
    + rewrite lookup_insert_ne in Hq' by done. by eapply D.
Qed.

(** Putting the head of the queue into a free nonce slot. *)
Lemma take_head_inv tm nx f pend real co tx d q :
  DInv tm nx f pend real ((tx, d) :: co) → default pq_default (pend !! psender tx) = q →
  (size (q_map q) ≤ 64)%nat → q_map q !! pnonce tx = None →
  ∀ q1, q_map q1 = <[pnonce tx := tx]> (q_map q) → q_rm q1 = q_rm q →
  DInv tm nx f (<[psender tx := q1]> pend) real co.
Proof.
  intros D Hq HS HF q1 Hm Hr. set (a := psender tx) in *.
  assert (tm !! phash tx = Some tx ∧ ¬ dropped f tx ∧ ¬ packaged f tx) as (HTx & HTd & HTp)
    by (apply (d_co _ _ _ _ _ _ D); set_solver).
  pose proof (d_co_nodup _ _ _ _ _ _ D) as ND. cbn in ND. apply NoDup_cons in ND as [NIn ND].
  split.
  - apply D.
  - apply D.
  - intros p Hp. apply (d_co _ _ _ _ _ _ D). cbn. set_solver.
  - done.
  - apply D.
  - apply D.
  - intros a' q' n p Hq' Hp.
    assert (∀ q0, pend !! a' = Some q0 → q_map q0 !! n = Some p →
      tm !! phash p = Some p ∧ psender p = a' ∧ pnonce p = n ∧ ¬ dropped f p ∧ p ∉ co.*1) as Old.
    { intros q0 H0 H1. destruct (d_pend _ _ _ _ _ _ D a' q0 n p H0 H1) as (?&?&?&?&HN). cbn in HN.
      apply not_elem_of_cons in HN as [HN1 HN2]. auto. }
    destruct (decide (a' = a)) as [->|].
    + rewrite lookup_insert in Hq'. injection Hq' as <-. rewrite Hm in Hp.
      destruct (decide (n = pnonce tx)) as [->|].
      * rewrite lookup_insert in Hp. injection Hp as <-. auto.
      * rewrite lookup_insert_ne in Hp by done. rewrite <- Hq in Hp.
        destruct (pend !! a) as [q0|] eqn:E0; cbn in Hp; [|by rewrite lookup_empty in Hp].
        by eapply Old.
    + rewrite lookup_insert_ne in Hq' by done. by eapply Old.
  - intros h p Hp Hl. destruct (d_live _ _ _ _ _ _ D h p Hp Hl) as [Hc|(q' & Hq' & Hp')].
    + cbn in Hc. apply elem_of_cons in Hc as [->|?]; [|by left]. right. exists q1. fold a.
      rewrite lookup_insert. split; [done|]. by rewrite Hm, lookup_insert.
    + right. destruct (decide (psender p = a)) as [E|].
      * exists q1. rewrite E, lookup_insert. split; [done|].
        rewrite E in Hq'. rewrite Hq' in Hq. cbn in Hq. subst q'.
        rewrite Hm, lookup_insert_ne; [done|]. intros X. rewrite X in HF. congruence.
      * exists q'. by rewrite lookup_insert_ne.
  - apply D.
  - apply D.
  - intros a' q' Hq'. destruct (decide (a' = a)) as [->|].
    + rewrite lookup_insert in Hq'. injection Hq' as <-. rewrite Hm, map_size_insert_None by done. lia.
    + rewrite lookup_insert_ne in Hq' by done. by eapply D.
  - intros a' q' Hq'. destruct (decide (a' = a)) as [->|].
    + rewrite lookup_insert in Hq'. injection Hq' as <-. rewrite Hr, <- Hq.
      destruct (pend !! a) as [q0|] eqn:E0; cbn; [by eapply D|done].
    + rewrite lookup_insert_ne in Hq' by done. by eapply D.
Qed.

(** Replacing a live transaction of the same nonce by the head of the queue. *)
Lemma replace_head_inv tm nx f pend real co tx d q old (pk : bool) :
  DInv tm nx f pend real ((tx, d) :: co) → pend !! psender tx = Some q →
  q_map q !! pnonce tx = Some old → is_package f old = pk →
  ∀ q1, q_map q1 = <[pnonce tx := tx]> (q_map q) → q_rm q1 = q_rm q →
  DInv tm nx (if pk then set_package (set_dropped f old) tx else set_dropped f old)
    (<[psender tx := q1]> pend) (if pk then real ++ [tx] else real) co.
Proof.
  intros D Hq HO Hpk q1 Hm Hr. set (a := psender tx) in *.
  assert (tm !! phash tx = Some tx ∧ ¬ dropped f tx ∧ ¬ packaged f tx) as (HTx & HTd & HTp)
    by (apply (d_co _ _ _ _ _ _ D); set_solver).
  pose proof (d_co_nodup _ _ _ _ _ _ D) as ND. cbn in ND. apply NoDup_cons in ND as [NIn ND].
  destruct (d_pend _ _ _ _ _ _ D a q _ old Hq HO) as (HOt & HOs & HOn & HOd & HOc). cbn in HOc.
  apply not_elem_of_cons in HOc as [HOc1 HOc2].
  assert (pt_id tx ≠ pt_id old) as Hne.
  { intros X. apply HOc1. symmetry. by eapply (d_ids _ _ _ _ _ _ D). }
  set (f' := if pk then set_package (set_dropped f old) tx else set_dropped f old).
  assert (∀ p, dropped f' p ↔ pt_id p = pt_id old ∨ dropped f p) as HDr.
  { intros p. subst f'. destruct pk; [rewrite dropped_set_package|]; apply dropped_set. }
  assert (∀ p, packaged f' p ↔ (pk = true ∧ pt_id p = pt_id tx) ∨ packaged f p) as HPk.
  { intros p. subst f'. destruct pk; [rewrite packaged_set|]; rewrite packaged_set_dropped.
    - intuition. - intuition congruence. }
  assert (∀ p, tm !! phash p = Some p → pt_id p = pt_id tx → p = tx) as Hid
    by (intros p Hp; by eapply (d_ids _ _ _ _ _ _ D)).
  assert (∀ p, tm !! phash p = Some p → pt_id p = pt_id old → p = old) as Hido
    by (intros p Hp; by eapply (d_ids _ _ _ _ _ _ D)).
  split.
  - apply D.
  - apply D.
  - intros p Hp. destruct (d_co _ _ _ _ _ _ D p) as (Hp1 & Hp2 & Hp3); [cbn; set_solver|].
    split; [done|]. rewrite HDr, HPk. split.
    + intros [X|?]; [|done]. apply HOc2. by rewrite <- (Hido p).
    + intros [[_ X]|?]; [|done]. apply NIn. by rewrite <- (Hid p).
  - done.
  - intros p Hp.
    assert (p ∈ real ∨ (pk = true ∧ p = tx)) as [Hp'|[Hpk' ->]].
    { destruct pk; [apply elem_of_app in Hp as [?|?%elem_of_list_singleton]; auto|by left]. }
    + destruct (d_real _ _ _ _ _ _ D p Hp'). split; [done|]. rewrite HPk. by right.
    + split; [done|]. rewrite HPk. left. done.
  - destruct pk; [|apply D]. apply NoDup_app. split; [apply D|]. split; [|apply NoDup_singleton].
    intros p Hp ->%elem_of_list_singleton. by apply (d_real _ _ _ _ _ _ D) in Hp as [_ ?].
  - intros a' q' n p Hq' Hp.
    assert (∀ q0, pend !! a' = Some q0 → q_map q0 !! n = Some p → p ≠ old →
      tm !! phash p = Some p ∧ psender p = a' ∧ pnonce p = n ∧ ¬ dropped f' p ∧ p ∉ co.*1) as Old.
    { intros q0 H0 H1 HN. destruct (d_pend _ _ _ _ _ _ D a' q0 n p H0 H1) as (?&?&?&?&HNc). cbn in HNc.
      apply not_elem_of_cons in HNc as [HN1 HN2]. repeat split; auto. rewrite HDr. intros [X|?]; [|done].
      apply HN. by apply Hido. }
    destruct (decide (a' = a)) as [->|].
    + rewrite lookup_insert in Hq'. injection Hq' as <-. rewrite Hm in Hp.
      destruct (decide (n = pnonce tx)) as [->|].
      * rewrite lookup_insert in Hp. injection Hp as <-. repeat split; auto. rewrite HDr. tauto.
      * rewrite lookup_insert_ne in Hp by done. apply (Old q Hq Hp). intros ->. destruct (d_pend _ _ _ _ _ _ D a q n old Hq Hp) as (_&_&X&_). congruence.
    + rewrite lookup_insert_ne in Hq' by done. eapply Old; eauto. intros ->.
      destruct (d_pend _ _ _ _ _ _ D a' q' n old Hq' Hp) as (_ & X & _). congruence.
  - intros h p Hp Hl. rewrite HDr in Hl.
    destruct (d_live _ _ _ _ _ _ D h p Hp) as [Hc|(q' & Hq' & Hp')]; [tauto| |].
    + cbn in Hc. apply elem_of_cons in Hc as [->|?]; [|by left]. right. exists q1. fold a.
      rewrite lookup_insert. split; [done|]. by rewrite Hm, lookup_insert.
    + right. destruct (decide (psender p = a)) as [E|].
      * exists q1. rewrite E, lookup_insert. split; [done|].
        rewrite E in Hq'. assert (q' = q) as -> by congruence.
        rewrite Hm, lookup_insert_ne; [done|]. intros X. apply Hl. left. congruence.
      * exists q'. by rewrite lookup_insert_ne.
  - intros h p Hp Hl Hk. rewrite HDr in Hl. rewrite HPk in Hk. destruct Hk as [[-> Hk]|Hk].
    + assert (p = tx) as -> by (by eapply (d_ids _ _ _ _ _ _ D)). apply elem_of_app. right. by apply elem_of_list_singleton.
    + assert (p ∈ real) by (eapply (d_pkg _ _ _ _ _ _ D); eauto). destruct pk; [apply elem_of_app; by left|done].
  - intros i [Hi|Hi].
    + assert (i = pt_id old ∨ i ∈ f_drop f) as [->|?].
      { subst f'. destruct pk; cbn in Hi; set_solver. }
      * by apply (d_txmap _ _ _ _ _ _ D) in HOt as [_ ?].
      * apply (d_flags _ _ _ _ _ _ D). by left.
    + assert (i = pt_id tx ∨ i ∈ f_pkg f) as [->|?].
      { subst f'. destruct pk; cbn in Hi; set_solver. }
      * by apply (d_txmap _ _ _ _ _ _ D) in HTx as [_ ?].
      * apply (d_flags _ _ _ _ _ _ D). by right.
  - intros a' q' Hq'. destruct (decide (a' = a)) as [->|].
    + rewrite lookup_insert in Hq'. injection Hq' as <-. rewrite Hm, map_size_insert_Some by done. by eapply D.
    + rewrite lookup_insert_ne in Hq' by done. by eapply D.
  - intros a' q' Hq'. destruct (decide (a' = a)) as [->|].
    + rewrite lookup_insert in Hq'. injection Hq' as <-. rewrite Hr. by eapply D.
    + rewrite lookup_insert_ne in Hq' by done. by eapply D.
Qed.

Lemma drain_one_inv tm nx f pend real co tx d f' pend' real' :
  DInv tm nx f pend real ((tx, d) :: co) →
  drain_one (Ok (f, pend, real)) (tx, d) = Ok (f', pend', real') →
  DInv tm nx f' pend' real' co.
Proof.
  intros D H. cbn [drain_one fst snd] in H.
  set (q := default pq_default (pend !! psender tx)) in *.
  destruct (64 <? size (q_map q))%nat eqn:EL.
  { injection H as <- <- <-. by apply (drop_head_inv tm nx f pend real co tx d (psender tx) q D). }
  apply Nat.ltb_ge in EL.
  unfold pq_insert in H.
  destruct (pnonce tx <? d) eqn:E1; [discriminate|].
  destruct (pnonce tx <? q_cur q) eqn:E2.
  { assert (DInv tm nx (set_dropped f tx) (<[psender tx := q]> pend) real co) as D1
      by (by apply (drop_head_inv tm nx f pend real co tx d (psender tx) q D)).
    destruct (pq_try_search (set_dropped f tx) q real) as [[[f2 q2] real2]| |] eqn:ES; try discriminate.
    injection H as <- <- <-. eapply search_inv in ES as [D2 _]; [|exact D1|by rewrite lookup_insert].
    by rewrite insert_insert in D2. }
  set (q' := if q_cur q <? pnonce tx - d then _ else q) in *.
  assert (q_map q' = q_map q) as Hq' by (subst q'; by destruct (q_cur q <? pnonce tx - d)).
  assert (q_rm q' = q_rm q) as Hr' by (subst q'; by destruct (q_cur q <? pnonce tx - d)).
  destruct (q_map q' !! pnonce tx) as [old|] eqn:EO.
  - rewrite Hq' in EO.
    assert (pend !! psender tx = Some q) as Hpq.
    { destruct (pend !! psender tx) as [q0|] eqn:E0; [reflexivity|]. subst q. cbn in EO. by rewrite lookup_empty in EO. }
    destruct (pprice old <? pprice tx) eqn:EP.
    + set (q1 := PQ (<[pnonce tx:=tx]> (q_map q')) _ _ _) in *.
      pose proof (replace_head_inv _ _ _ _ _ _ tx d q old (is_package f old) D Hpq EO eq_refl q1
        ltac:(subst q1; cbn; by rewrite Hq') Hr') as D1.
      change (is_package (set_dropped f old) old) with (is_package f old) in H.
      destruct (is_package f old) eqn:EK;
        (destruct (pq_try_search _ q1 _) as [[[f2 q2] real2]| |] eqn:ES; try discriminate;
         injection H as <- <- <-; eapply search_inv in ES as [D2 _]; [|exact D1|by rewrite lookup_insert];
         by rewrite insert_insert in D2).
    + assert (DInv tm nx (set_dropped f tx) (<[psender tx := q']> pend) real co) as D1
        by (by apply (drop_head_inv tm nx f pend real co tx d (psender tx) q D)).
      destruct (pq_try_search _ q' _) as [[[f2 q2] real2]| |] eqn:ES; try discriminate.
      injection H as <- <- <-. eapply search_inv in ES as [D2 _]; [|exact D1|by rewrite lookup_insert].
      by rewrite insert_insert in D2.
  - rewrite Hq' in EO. set (q1 := PQ (<[pnonce tx:=tx]> (q_map q')) _ _ _) in *.
    assert (DInv tm nx f (<[psender tx := q1]> pend) real co) as D1.
    { eapply take_head_inv; eauto. subst q1; cbn. by rewrite Hq'. }
    destruct (pq_try_search _ q1 _) as [[[f2 q2] real2]| |] eqn:ES; try discriminate.
    injection H as <- <- <-. eapply search_inv in ES as [D2 _]; [|exact D1|by rewrite lookup_insert].
    by rewrite insert_insert in D2.
Qed.

Lemma drain_fail co o : (o = Err ∨ o = Panic) → fold_left drain_one co o = o.
Proof. intros H. induction co as [|e co IH]; [done|]. cbn [fold_left]. destruct H as [->| ->]; cbn; auto. Qed.

Lemma drain_inv tm nx co f pend real f' pend' real' :
  DInv tm nx f pend real co →
  fold_left drain_one co (Ok (f, pend, real)) = Ok (f', pend', real') →
  DInv tm nx f' pend' real' [].
Proof.
  revert f pend real. induction co as [|[tx d] co IH]; intros f pend real D H.
  - cbn in H. by simplify_eq.
  - cbn [fold_left] in H.
    destruct (drain_one (Ok (f, pend, real)) (tx, d)) as [[[f1 pend1] real1]| |] eqn:E.
    + eapply IH; [|exact H]. by eapply drain_one_inv.
    + rewrite drain_fail in H by auto. discriminate.
    + rewrite drain_fail in H by auto. discriminate.
Qed.
