(** Properties of the transaction pool, continued: C14 for whole runs. *)
From Verif Require Import TxModel PoolModel PoolProofs PoolProofs2 PoolProofs3 PoolProofs4 PoolProofs5 PoolProps PoolProps2.
From Coq Require Import Sorting.Sorted.

Definition slot (p : ptr) : N * N := (psender p, pnonce p).

(** What holds in a run in which no place (sender, nonce) is taken twice; [u] are the places that have left the
    submission queue and [a] gives the nonces of the accounts. *)
Record OInv (a : N → N) (u : N * N → Prop) (f : flags) (pend : gmap N pq) (real : list ptr) (co : list (ptr * N)) : Prop := {
  o_ord : queue_ordered real;
  o_used : ∀ b q n p, pend !! b = Some q → q_map q !! n = Some p → u (b, n);
  o_co : ∀ p d, (p, d) ∈ co → ¬ u (slot p) ∧ pnonce p - d <= a (psender p);
  o_nodup : NoDup (slot <$> co.*1);
  o_un : ∀ b q n p r, pend !! b = Some q → q_map q !! n = Some p → ¬ packaged f p → q_cur q <= n →
    r ∈ real → psender r = b → pnonce r < n;
  o_fill : ∀ b q n r, pend !! b = Some q → r ∈ real → psender r = b → q_cur q <= n → n <= pnonce r → u (b, n);
  o_le : ∀ b q, pend !! b = Some q → q_cur q <= q_pop q;
  o_pop : ∀ b q n, pend !! b = Some q → q_cur q <= n → n < q_pop q → u (b, n);
  o_pkg : ∀ b q n p, pend !! b = Some q → q_map q !! n = Some p → q_cur q <= n → n < q_pop q → packaged f p;
  o_cur : ∀ b q, pend !! b = Some q → q_cur q <= a b;
  o_real : ∀ r, r ∈ real → is_Some (pend !! psender r) }.

Lemma ordered_snoc l v : queue_ordered l → (∀ r, r ∈ l → before r v) → queue_ordered (l ++ [v]).
Proof.
  induction l as [|x l IH]; intros H HV; cbn; [repeat constructor|]. apply StronglySorted_inv in H as [H HF].
  constructor; [apply IH; [done|intros; apply HV; set_solver]|]. apply Forall_app. split; [done|]. constructor; [apply HV; set_solver|constructor].
Qed.
Lemma ordered_filter (P : ptr → Prop) `{∀ x, Decision (P x)} l : queue_ordered l → queue_ordered (filter P l).
Proof.
  induction l as [|x l IH]; intros HS; [constructor|]. apply StronglySorted_inv in HS as [HS HF]. rewrite filter_cons.
  destruct (decide _); [|by apply IH]. constructor; [by apply IH|]. rewrite Forall_forall in HF |- *.
  intros y Hy. apply elem_of_list_filter in Hy as [_ Hy]. auto.
Qed.

Lemma search_order k f m c out f' c' out' b :
  pq_search k f m c out = Ok (f', c', out') → (∀ n p, m !! n = Some p → psender p = b ∧ pnonce p = n) →
  queue_ordered out →
  (∀ n p r, m !! n = Some p → ¬ packaged f p → c <= n → r ∈ out → psender r = b → pnonce r < n) →
  queue_ordered out'.
Proof.
  intros H HM. revert f c out H. induction k as [|k IH]; intros f c out H HO HU; cbn [pq_search] in H.
  - injection H as _ _ <-. done.
  - destruct (m !! c) as [v|] eqn:E; [|injection H as _ _ <-; done].
    destruct (c =? U64_MAX); [discriminate|]. destruct (HM _ _ E) as [Es En].
    destruct (is_package f v) eqn:EP.
    + eapply (IH _ _ _ H); [done|]. intros n p r Hn Hp Hc. apply (HU n p r Hn Hp). lia.
    + apply is_package_false in EP. eapply (IH _ _ _ H).
      * apply ordered_snoc; [done|]. intros r Hr Hs. rewrite En. apply (HU c v r E EP); [lia|done|congruence].
      * intros n p r Hn Hp Hc Hr Hs. rewrite packaged_set in Hp. apply elem_of_app in Hr as [Hr|Hr].
        -- apply (HU n p r Hn); [tauto|lia|done|done].
        -- apply elem_of_list_singleton in Hr as ->. lia.
Qed.

Lemma search_oinv a u f pend real co b q f2 q2 real2 :
  OInv a u f pend real co → pend !! b = Some q → (∀ n p, q_map q !! n = Some p → psender p = b ∧ pnonce p = n) →
  pq_try_search f q real = Ok (f2, q2, real2) → OInv a u f2 (<[b := q2]> pend) real2 co.
Proof.
  intros O Hb HM H. unfold pq_try_search in H.
  destruct (pq_search _ f (q_map q) (q_pop q) real) as [[[f' c'] out']| |] eqn:E; try discriminate.
  injection H as <- <- <-.
  pose proof (search_order _ _ _ _ _ _ _ _ b E HM (o_ord _ _ _ _ _ _ O)) as HO.
  apply pq_search_spec in E as (new & -> & HD & HP & HN & HV & HC & HA).
  assert (∀ p, ¬ packaged f' p → ¬ packaged f p) as HNP by (unfold packaged; intros p; rewrite HP; tauto).
  assert (∀ v, v ∈ new → psender v = b ∧ q_pop q <= pnonce v < c') as HV2.
  { intros v Hv. destruct (HV v Hv) as (_ & n & ? & ? & Hn). destruct (HM _ _ Hn). subst. auto. }
  pose proof (o_le _ _ _ _ _ _ O b q Hb) as HL.
  assert (∀ n, q_cur q <= n → n < c' → u (b, n)) as HF.
  { intros n H1 H2. destruct (decide (n < q_pop q)); [by eapply (o_pop _ _ _ _ _ _ O)|].
    destruct (HA n) as (v & Hv & _); [lia|done|]. by eapply (o_used _ _ _ _ _ _ O). }
  split; try (apply O).
  - apply HO. intros n p r Hn Hp Hc Hr Hs. eapply (o_un _ _ _ _ _ _ O b q n p r); eauto. lia.
  - intros b' q' n p Hq Hn. apply lookup_insert_Some in Hq as [[<- <-]|[? Hq]]; eapply (o_used _ _ _ _ _ _ O); eauto.
  - intros b' q' n p r Hq Hn Hp Hc Hr Hs. apply lookup_insert_Some in Hq as [[<- <-]|[Hne Hq]]; cbn [q_map q_cur] in *.
    + apply elem_of_app in Hr as [Hr|Hr]; [eapply (o_un _ _ _ _ _ _ O b q); eauto|].
      destruct (HV2 _ Hr) as [_ Hr2]. destruct (decide (n < c')); [|lia]. destruct Hp.
      destruct (decide (n < q_pop q)).
      * unfold packaged. apply HP. left. by eapply (o_pkg _ _ _ _ _ _ O b q n p).
      * destruct (HA n) as (v & Hv & ?); [lia|done|]. congruence.
    + apply elem_of_app in Hr as [Hr|Hr]; [eapply (o_un _ _ _ _ _ _ O b' q'); eauto|].
      destruct (HV2 _ Hr) as [? _]. congruence.
  - intros b' q' n r Hq Hr Hs Hc Hn. apply elem_of_app in Hr as [Hr|Hr].
    + apply lookup_insert_Some in Hq as [[<- <-]|[Hne Hq]]; eapply (o_fill _ _ _ _ _ _ O); eauto.
    + destruct (HV2 _ Hr) as [Hs2 Hr2]. subst b'. rewrite Hs2 in Hq |- *. rewrite lookup_insert in Hq. injection Hq as <-.
      apply HF; [done|lia].
  - intros b' q' Hq. apply lookup_insert_Some in Hq as [[<- <-]|[? Hq]]; cbn; [lia|by eapply (o_le _ _ _ _ _ _ O)].
  - intros b' q' n Hq. apply lookup_insert_Some in Hq as [[<- <-]|[? Hq]]; cbn; [apply HF|by eapply (o_pop _ _ _ _ _ _ O)].
  - intros b' q' n p Hq. apply lookup_insert_Some in Hq as [[<- <-]|[? Hq]]; cbn [q_map q_cur q_pop]; intros Hn H1 H2.
    + destruct (decide (n < q_pop q)).
      * unfold packaged. apply HP. left. by eapply (o_pkg _ _ _ _ _ _ O b q n p).
      * destruct (HA n) as (v & Hv & ?); [lia|done|]. congruence.
    + unfold packaged. apply HP. left. by eapply (o_pkg _ _ _ _ _ _ O b' q' n p).
  - intros b' q' Hq. apply lookup_insert_Some in Hq as [[<- <-]|[? Hq]]; [by eapply (o_cur _ _ _ _ _ _ O b q)|by eapply (o_cur _ _ _ _ _ _ O)].
  - intros r Hr. apply lookup_insert_is_Some'. apply elem_of_app in Hr as [Hr|Hr]; [right; by eapply (o_real _ _ _ _ _ _ O)|].
    left. by destruct (HV2 _ Hr).
Qed.

(** The queue of the sender of the head of the submission queue is replaced; the head takes its place or not. *)
Lemma head_oinv a u f f1 pend real co tx d q q1 :
  OInv a u f pend real ((tx, d) :: co) → f_pkg f1 = f_pkg f → ¬ packaged f tx → q = default pq_default (pend !! psender tx) →
  (q_cur q1 = q_cur q ∧ q_pop q1 = q_pop q ∨ q_cur q <= q_cur q1 ∧ q_pop q1 = q_cur q1 ∧ q_cur q1 <= a (psender tx)) →
  (q_map q1 = q_map q ∨ q_cur q1 <= pnonce tx ∧ q_map q1 = <[pnonce tx := tx]> (q_map q)) →
  OInv a (λ x, u x ∨ x = slot tx) f1 (<[psender tx := q1]> pend) real co.
Proof.
  intros O Hf Hun Eq HQ HM.
  destruct (o_co _ _ _ _ _ _ O tx d) as [Hnew Htip]; [set_solver|].
  pose proof (o_nodup _ _ _ _ _ _ O) as HND. cbn in HND. apply NoDup_cons in HND as [HNI HND].
  assert (∀ p, packaged f1 p ↔ packaged f p) as HP by (intros; unfold packaged; by rewrite Hf).
  set (b := psender tx) in *.
  assert (∀ r, r ∈ real → psender r = b → pend !! b = Some q) as HR.
  { intros r Hr Hs. destruct (o_real _ _ _ _ _ _ O r Hr) as [q0 H0]. rewrite Hs in H0. rewrite H0 in Eq. cbn in Eq. by subst. }
  assert (pend !! b = Some q ∨ q = pq_default) as HD.
  { destruct (pend !! b); cbn in Eq; subst; auto. }
  assert (q_cur q <= q_cur q1) as Hcur by (destruct HQ as [[-> _]|[? _]]; lia).
  assert (∀ n, q_cur q1 <= n → n < q_pop q1 → u (b, n) ∧ ∀ p, q_map q !! n = Some p → packaged f p) as Hpop.
  { intros n H1 H2. destruct HQ as [[E1 E2]|(_ & E2 & _)]; [|lia]. rewrite E1 in H1. rewrite E2 in H2.
    destruct HD as [HD| ->]; [|cbn in H2; lia]. split; [by eapply (o_pop _ _ _ _ _ _ O)|]. intros p Hp. by eapply (o_pkg _ _ _ _ _ _ O). }
  assert (∀ n p, q_map q1 !! n = Some p → (pend !! b = Some q ∧ q_map q !! n = Some p) ∨ (n = pnonce tx ∧ p = tx ∧ q_cur q1 <= n)) as HL.
  { intros n p Hn. assert (q_map q !! n = Some p → pend !! b = Some q) as X.
    { destruct HD as [?| ->]; [done|]. cbn. by rewrite lookup_empty. }
    destruct HM as [E|[HM E]]; rewrite E in Hn; [auto|]. apply lookup_insert_Some in Hn as [[<- <-]|[_ Hn]]; auto. }
  split.
  - apply O.
  - intros b' q' n p Hq Hn. apply lookup_insert_Some in Hq as [[<- <-]|[? Hq]]; [|left; by eapply (o_used _ _ _ _ _ _ O)].
    destruct (HL _ _ Hn) as [[H1 H2]|(-> & _ & _)]; [left; by eapply (o_used _ _ _ _ _ _ O)|by right].
  - intros p d' Hp. destruct (o_co _ _ _ _ _ _ O p d') as [H1 H2]; [set_solver|]. split; [|done]. intros [?|E]; [done|].
    apply HNI. rewrite <- E. apply elem_of_list_fmap. exists p. split; [done|]. apply elem_of_list_fmap. by exists (p, d').
  - done.
  - intros b' q' n p r Hq Hn Hp Hc Hr Hs. rewrite HP in Hp.
    apply lookup_insert_Some in Hq as [[<- <-]|[? Hq]]; [|by eapply (o_un _ _ _ _ _ _ O b' q' n p r)].
    destruct (HL _ _ Hn) as [[H1 H2]|(-> & -> & H1)]; [eapply (o_un _ _ _ _ _ _ O b q n p r); eauto; lia|].
    destruct (decide (pnonce r < pnonce tx)); [done|]. destruct Hnew. eapply (o_fill _ _ _ _ _ _ O b q (pnonce tx) r); eauto; lia.
  - intros b' q' n r Hq Hr Hs Hc Hn. left. apply lookup_insert_Some in Hq as [[<- <-]|[? Hq]].
    + eapply (o_fill _ _ _ _ _ _ O b q n r); eauto. lia.
    + by eapply (o_fill _ _ _ _ _ _ O b' q' n r).
  - intros b' q' Hq. apply lookup_insert_Some in Hq as [[<- <-]|[? Hq]]; [|by eapply (o_le _ _ _ _ _ _ O)].
    destruct HQ as [[-> ->]|(_ & -> & _)]; [|lia]. destruct HD as [HD| ->]; [by eapply (o_le _ _ _ _ _ _ O)|cbn; lia].
  - intros b' q' n Hq H1 H2. left. apply lookup_insert_Some in Hq as [[<- <-]|[? Hq]]; [by apply Hpop|by eapply (o_pop _ _ _ _ _ _ O)].
  - intros b' q' n p Hq Hn H1 H2. rewrite HP. apply lookup_insert_Some in Hq as [[<- <-]|[? Hq]]; [|by eapply (o_pkg _ _ _ _ _ _ O)].
    destruct (Hpop n H1 H2) as [X Y]. destruct (HL _ _ Hn) as [[_ ?]|(-> & _ & _)]; [auto|]. by destruct Hnew.
  - intros b' q' Hq. apply lookup_insert_Some in Hq as [[<- <-]|[? Hq]]; [|by eapply (o_cur _ _ _ _ _ _ O)].
    destruct HQ as [[-> _]|(_ & _ & ?)]; [|done]. destruct HD as [HD| ->]; [by eapply (o_cur _ _ _ _ _ _ O)|cbn; lia].
  - intros r Hr. apply lookup_insert_is_Some'. right. by eapply (o_real _ _ _ _ _ _ O).
Qed.

Lemma drain_one_oinv tm nx a u f pend real co tx d f' pend' real' :
  DInv tm nx f pend real ((tx, d) :: co) → OInv a u f pend real ((tx, d) :: co) →
  drain_one (Ok (f, pend, real)) (tx, d) = Ok (f', pend', real') →
  OInv a (λ x, u x ∨ x = slot tx) f' pend' real' co.
Proof.
  intros D O H. cbn [drain_one fst snd] in H.
  set (q := default pq_default (pend !! psender tx)) in *.
  destruct (d_co _ _ _ _ _ _ D tx) as (_ & _ & Hun); [cbn; set_solver|].
  destruct (o_co _ _ _ _ _ _ O tx d) as [Hnew Htip]; [set_solver|].
  destruct (64 <? size (q_map q))%nat eqn:EL.
  { injection H as <- <- <-. eapply (head_oinv a u f _ pend real co tx d q q O); auto. }
  assert (∀ n p, q_map q !! n = Some p → pend !! psender tx = Some q ∧ psender p = psender tx ∧ pnonce p = n) as HM.
  { intros n p Hn. assert (pend !! psender tx = Some q) as X.
    { subst q. destruct (pend !! psender tx); cbn in *; [done|]. by rewrite lookup_empty in Hn. }
    split; [done|]. destruct (d_pend _ _ _ _ _ _ D _ _ _ _ X Hn) as (_ & ? & ? & _). done. }
  unfold pq_insert in H. destruct (pnonce tx <? d) eqn:E1; [discriminate|]. apply N.ltb_ge in E1.
  destruct (pnonce tx <? q_cur q) eqn:E2.
  { destruct (pq_try_search (set_dropped f tx) q real) as [[[f2 q2] real2]| |] eqn:ES; try discriminate.
    injection H as <- <- <-.
    eapply (search_oinv a _ _ (<[psender tx := q]> pend) _ co (psender tx) q) in ES;
      [|eapply (head_oinv a u f _ pend real co tx d q q O); auto|by rewrite lookup_insert|intros n p Hn; exact (proj2 (HM _ _ Hn))].
    by rewrite insert_insert in ES. }
  apply N.ltb_ge in E2.
  set (q' := if q_cur q <? pnonce tx - d then _ else q) in *.
  assert (q_map q' = q_map q) as Hq' by (subst q'; by destruct (q_cur q <? pnonce tx - d)).
  destruct (q_map q' !! pnonce tx) as [old|] eqn:EO.
  { rewrite Hq' in EO. destruct (HM _ _ EO) as (X & _ & _). destruct Hnew. by eapply (o_used _ _ _ _ _ _ O). }
  set (q1 := PQ (<[pnonce tx:=tx]> (q_map q')) _ _ _) in *.
  destruct (pq_try_search _ q1 _) as [[[f2 q2] real2]| |] eqn:ES; try discriminate.
  injection H as <- <- <-.
  eapply (search_oinv a _ _ (<[psender tx := q1]> pend) _ co (psender tx) q1) in ES; [by rewrite insert_insert in ES| |by rewrite lookup_insert|].
  - eapply (head_oinv a u f f pend real co tx d q q1 O); auto.
    + subst q1 q'. cbn. destruct (q_cur q <? pnonce tx - d) eqn:E3; [|by left]. apply N.ltb_lt in E3. right. cbn. lia.
    + right. subst q1. cbn. rewrite Hq'. split; [|done]. subst q'. destruct (q_cur q <? pnonce tx - d); cbn; lia.
  - subst q1. cbn. rewrite Hq'. intros n p Hn. apply lookup_insert_Some in Hn as [[<- <-]|[_ Hn]]; [done|]. exact (proj2 (HM _ _ Hn)).
Qed.

Lemma drain_oinv tm nx a co f pend real f' pend' real' u :
  DInv tm nx f pend real co → OInv a u f pend real co →
  fold_left drain_one co (Ok (f, pend, real)) = Ok (f', pend', real') →
  ∃ u', OInv a u' f' pend' real' [] ∧ (∀ x, u' x ↔ u x ∨ x ∈ slot <$> co.*1).
Proof.
  revert f pend real u. induction co as [|[tx d] co IH]; intros f pend real u D O H.
  - cbn in H. simplify_eq. exists u. split; [done|]. intros x. cbn. set_solver.
  - cbn [fold_left] in H.
    destruct (drain_one (Ok (f, pend, real)) (tx, d)) as [[[f1 pend1] real1]| |] eqn:E.
    + destruct (IH f1 pend1 real1 _ (drain_one_inv _ _ _ _ _ _ _ _ _ _ _ D E) (drain_one_oinv _ _ _ _ _ _ _ _ _ _ _ _ _ D O E) H) as (u' & O' & Hu).
      exists u'. split; [done|]. intros x. rewrite Hu. cbn. set_solver.
    + rewrite drain_fail in H by auto. discriminate.
    + rewrite drain_fail in H by auto. discriminate.
Qed.

Lemma flush_to_pending_oinv a u s s' :
  DInv (p_txmap s) (p_next s) (p_flags s) (p_pending s) (p_real s) (p_co s) →
  OInv a u (p_flags s) (p_pending s) (p_real s) (p_co s) → flush_to_pending s = Ok s' →
  ∃ u', OInv a u' (p_flags s') (p_pending s') (p_real s') (p_co s') ∧ p_co s' = [] ∧ (∀ x, u' x ↔ u x ∨ x ∈ slot <$> (p_co s).*1).
Proof.
  intros D O H. unfold flush_to_pending in H.
  destruct (fold_left drain_one _ _) as [[[f pend] real]| |] eqn:E; try discriminate. injection H as <-. cbn.
  destruct (drain_oinv _ _ _ _ _ _ _ _ _ _ _ D O E) as (u' & O' & Hu). by exists u'.
Qed.

Lemma flush_inner_oinv t a a' u s hs number s' r :
  DInv (p_txmap s) (p_next s) (p_flags s) (p_pending s) (p_real s) [] → p_co s = [] →
  OInv a u (p_flags s) (p_pending s) (p_real s) [] →
  (∀ x, a x <= a' x) →
  (∀ h p, h ∈ hs → p_txmap s !! h = Some p → a (psender p) <= pnonce p < a' (psender p)) →
  flush_inner t s hs number = Ok (s', r) → OInv a' u (p_flags s') (p_pending s') (p_real s') [].
Proof.
  intros D Hco O Ha Hh H. pose proof (flush_inner_spec t s hs number s' r D Hco H) as (D2 & C2 & _ & _ & _ & _ & _ & _ & T2 & _).
  unfold flush_inner in H.
  destruct (fold_left remove_one hs (p_txmap s, ∅, 0)) as [[m tips] red] eqn:ER.
  apply remove_all_spec in ER as (M1 & M2 & _ & _); [|intros h p Hp; by apply D in Hp as [? ?]].
  destruct (tip_panics _ _); [discriminate|].
  set (f1 := Flags (tip_dropped (p_pending s) tips ∪ f_drop (p_flags s)) (f_pkg (p_flags s))) in H.
  match type of H with Ok (Pool _ ?x _ _ (filter _ (pq_clear _ <$> _)) _ _ _ _ _, _) = _ => set (f2 := x) in H end.
  assert (∀ p, packaged f2 p ↔ packaged (p_flags s) p) as HP by done.
  clearbody f2. injection H as <- _. cbn [p_txmap p_next p_flags p_pending p_real p_co] in *.
  set (real' := filter _ (p_real s)) in *.
  assert (∀ p, p ∈ real' → p ∈ p_real s) as HR by (intros p Hp; by apply elem_of_list_filter in Hp as [_ ?]).
  assert (∀ b q', filter (λ kv : N * pq, q_rm kv.2 = false) (pq_clear f2 <$> tip_queues (p_pending s) tips) !! b = Some q' →
    ∃ q, p_pending s !! b = Some q ∧ (∀ n p, q_map q' !! n = Some p → q_map q !! n = Some p) ∧
      (q_cur q' = q_cur q ∧ q_pop q' = q_pop q ∨ q_cur q <= q_cur q' ∧ q_pop q' = q_cur q' ∧ q_cur q' <= a' b)) as HQ.
  { intros b q' Hq. apply map_filter_lookup_Some in Hq as [Hq _]. rewrite lookup_fmap in Hq.
    destruct (tip_queues (p_pending s) tips !! b) as [q1|] eqn:E1; [|done]. cbn in Hq. injection Hq as <-.
    apply tip_queues_spec in E1 as (q & Hb & Em & _ & E1). exists q. split; [done|]. split.
    - intros n p Hn. cbn in Hn. apply map_filter_lookup_Some in Hn as [Hn _]. by rewrite <- Em.
    - cbn [pq_clear q_cur q_pop]. destruct (tips !! b) as [v|] eqn:Ev; [|subst; auto]. right. destruct E1 as [-> ->].
      destruct (M2 _ _ Ev) as (h & p & Hi & Hp & <- & <-). destruct (Hh h p Hi Hp).
      pose proof (o_cur _ _ _ _ _ _ O _ _ Hb). lia. }
  assert (∀ q q' b, (q_cur q' = q_cur q ∧ q_pop q' = q_pop q ∨ q_cur q <= q_cur q' ∧ q_pop q' = q_cur q' ∧ q_cur q' <= a' b) → q_cur q <= q_cur q') as HC.
  { intros q q' b [[-> _]|[? _]]; lia. }
  split.
  - apply ordered_filter, O.
  - intros b q' n p Hq Hn. destruct (HQ _ _ Hq) as (q & Hb & Hm & _). eapply (o_used _ _ _ _ _ _ O); eauto.
  - intros p d Hp. by apply not_elem_of_nil in Hp.
  - constructor.
  - intros b q' n p r' Hq Hn Hp Hc Hr Hs. destruct (HQ _ _ Hq) as (q & Hb & Hm & Hq2). apply HC in Hq2.
    rewrite HP in Hp. eapply (o_un _ _ _ _ _ _ O b q n p r'); eauto. lia.
  - intros b q' n r' Hq Hr Hs Hc Hn. destruct (HQ _ _ Hq) as (q & Hb & _ & Hq2). apply HC in Hq2.
    eapply (o_fill _ _ _ _ _ _ O b q n r'); eauto. lia.
  - intros b q' Hq. destruct (HQ _ _ Hq) as (q & Hb & _ & [[-> ->]|(_ & -> & _)]); [by eapply (o_le _ _ _ _ _ _ O)|lia].
  - intros b q' n Hq H1 H2. destruct (HQ _ _ Hq) as (q & Hb & _ & [[E1 E2]|(_ & E2 & _)]); [|lia].
    rewrite E1 in H1. rewrite E2 in H2. by eapply (o_pop _ _ _ _ _ _ O).
  - intros b q' n p Hq Hn H1 H2. destruct (HQ _ _ Hq) as (q & Hb & Hm & [[E1 E2]|(_ & E2 & _)]); [|lia].
    rewrite E1 in H1. rewrite E2 in H2. rewrite HP. eapply (o_pkg _ _ _ _ _ _ O); eauto.
  - intros b q' Hq. destruct (HQ _ _ Hq) as (q & Hb & _ & [[-> _]|(_ & _ & ?)]); [|done].
    pose proof (o_cur _ _ _ _ _ _ O _ _ Hb). specialize (Ha b). lia.
  - intros r' Hr. destruct (d_real _ _ _ _ _ _ D2 r' Hr) as [X _]. destruct (T2 _ _ X) as (_ & _ & _ & Y).
    destruct (d_live _ _ _ _ _ _ D2 _ _ X Y) as [Z|(q & Z & _)]; [by apply not_elem_of_nil in Z|eauto].
Qed.

(** Runs of the pool in which every account uses each of its nonces once: [a] are the nonces of the accounts, [u] the
    places (sender, nonce) taken so far.  A transaction is given to the pool with the nonce its account had when it
    was checked ([check_nonce] is the distance to it, core/mempool/src/lib.rs:109), which is at most the one it has now; a
    transaction the pool holds or refuses may come again.  A block holds no transaction below the nonce of its
    account and raises the nonce above those it holds. *)
Inductive orderly (c t : N) : (N → N) → list (N * N) → list op → pool → Prop :=
| or_new a : orderly c t a [] [] pool_new
| or_insert a u ops s tx l d s' : orderly c t a u ops s → d <= t_nonce tx → t_nonce tx - d <= a (t_sender tx) →
    (t_sender tx, t_nonce tx) ∉ u → step c t isort s (OInsert tx l d) = Ok s' →
    orderly c t a ((t_sender tx, t_nonce tx) :: u) (ops ++ [OInsert tx l d]) s'
| or_again a u ops s tx l d s' : orderly c t a u ops s → (is_Some (p_txmap s !! t_hash tx) ∨ pool_insert c s tx l d = Err) →
    step c t isort s (OInsert tx l d) = Ok s' → orderly c t a u (ops ++ [OInsert tx l d]) s'
| or_sys a u ops s tx s' : orderly c t a u ops s → step c t isort s (OInsertSys tx) = Ok s' → orderly c t a u (ops ++ [OInsertSys tx]) s'
| or_package a u ops s g l s' : orderly c t a u ops s → step c t isort s (OPackage g l) = Ok s' → orderly c t a u (ops ++ [OPackage g l]) s'
| or_refresh a u ops s s' : orderly c t a u ops s → step c t isort s ORefresh = Ok s' → orderly c t a u (ops ++ [ORefresh]) s'
| or_flush a a' u ops s hs n s' : orderly c t a u ops s → (∀ x, a x <= a' x) →
    (∀ h p, h ∈ hs → p_txmap s !! h = Some p → a (psender p) <= pnonce p < a' (psender p)) →
    step c t isort s (OFlush hs n) = Ok s' → orderly c t a' u (ops ++ [OFlush hs n]) s'.

Definition covers (u : list (N * N)) (v : N * N → Prop) (co : list (ptr * N)) : Prop := ∀ x, v x ∨ x ∈ slot <$> co.*1 → x ∈ u.

Lemma orderly_inv c t U SY a u ops s : 0 < c → orderly c t a u ops s → Forall (op_ok U SY) ops →
  run c t isort pool_new ops = Ok s ∧ Inv c U SY s ∧
  ∃ v, OInv a v (p_flags s) (p_pending s) (p_real s) (p_co s) ∧ covers u v (p_co s).
Proof.
  intros HC H. induction H as [a|a u ops s tx l d s' H IH Hd Ht Hu E|a u ops s tx l d s' H IH Hx E|a u ops s tx s' H IH E
    |a u ops s g l s' H IH E|a u ops s s' H IH E|a a' u ops s hs n s' H IH Ha Hh E]; intros HF.
  { split; [done|]. split; [apply inv_new|]. exists (λ _, False). cbn. split; [|intros x [[]|Hx]; by apply not_elem_of_nil in Hx].
    split; cbn; try (intros; exfalso; repeat match goal with H : _ |- _ => first [rewrite lookup_empty in H; discriminate|by apply not_elem_of_nil in H] end; fail).
    - constructor.
    - constructor. }
  all: apply Forall_app in HF as [HF HO]; apply Forall_cons in HO as [HO _]; destruct (IH HF) as (R & I & v & O & CV).
  all: (split; [rewrite run_app, R; cbn [run]; by rewrite E|]; split; [by eapply (step_inv c t isort U SY isort_perm HC)|]).
  - cbn in E. destruct (pool_insert c s tx l d) as [s1| |] eqn:EI; try discriminate; injection E as <-.
    2:{ exists v. split; [done|]. intros x Hx. apply elem_of_cons. right. by apply CV. }
    apply (pool_insert_spec c U SY) in EI as (_ & s2 & Hs2 & I2 & ET & _ & EI); [|done|done].
    assert (∃ v2, OInv a v2 (p_flags s2) (p_pending s2) (p_real s2) (p_co s2) ∧ covers u v2 (p_co s2)) as (v2 & O2 & CV2).
    { destruct Hs2 as [->|Hs2]; [by exists v|]. destruct (flush_to_pending_oinv _ _ _ _ (i_d _ _ _ _ I) O Hs2) as (v2 & O2 & E2 & Hv).
      exists v2. split; [done|]. intros x. rewrite E2. cbn. intros [Hx|Hx]; [|by apply not_elem_of_nil in Hx]. apply CV. by apply Hv. }
    exists v2. destruct (p_txmap s !! t_hash tx); subst s1; cbn.
    + split; [done|]. intros x Hx. apply elem_of_cons. right. by apply CV2.
    + split.
      * destruct O2. split; try done.
        -- intros p d' Hp. apply elem_of_app in Hp as [Hp|Hp]; [auto|]. apply elem_of_list_singleton in Hp. injection Hp as -> ->.
           split; [|done]. intros Hv. apply Hu, CV2. by left.
        -- rewrite !fmap_app. apply NoDup_app. split; [done|]. split; [|cbn; apply NoDup_singleton].
           intros x Hx1 Hx2. cbn in Hx2. apply elem_of_list_singleton in Hx2 as ->. apply Hu, CV2. by right.
      * intros x. rewrite !fmap_app, elem_of_app. cbn. rewrite elem_of_list_singleton, elem_of_cons.
        intros [Hx|[Hx| ->]]; [right; apply CV2; by left|right; apply CV2; by right|by left].
  - cbn in E. destruct (pool_insert c s tx l d) as [s1| |] eqn:EI; try discriminate; injection E as <-; [|by exists v].
    destruct Hx as [[p0 Hx]|Hx]; [|discriminate].
    apply (pool_insert_spec c U SY) in EI as (_ & s2 & Hs2 & I2 & ET & _ & EI); [|done|done]. rewrite Hx in EI. subst s1. cbn.
    destruct Hs2 as [->|Hs2]; [by exists v|]. destruct (flush_to_pending_oinv _ _ _ _ (i_d _ _ _ _ I) O Hs2) as (v2 & O2 & E2 & Hv).
    exists v2. split; [done|]. intros x. rewrite E2. cbn. intros [Hy|Hy]; [|by apply not_elem_of_nil in Hy]. apply CV. by apply Hv.
  - cbn in E. injection E as <-. cbn. by exists v.
  - cbn in E. destruct (pool_package isort s g l) as [[s1 out]| |] eqn:EP; try discriminate; injection E as <-; [|by exists v].
    unfold pool_package in EP. destruct (sys_package_ok s); [|discriminate].
    assert (∃ s2 v2, OInv a v2 (p_flags s2) (p_pending s2) (p_real s2) (p_co s2) ∧ covers u v2 (p_co s2) ∧
      p_flags s1 = p_flags s2 ∧ p_pending s1 = p_pending s2 ∧ p_co s1 = p_co s2 ∧ p_real s1 = isort (p_real s2))
      as (s2 & v2 & O2 & CV2 & E1 & E2 & E3 & E4).
    { destruct (bool_decide (p_co s = [])).
      - injection EP as <- _. exists s, v. done.
      - destruct (flush_to_pending s) as [s2| |] eqn:Hs2; try discriminate. injection EP as <- _.
        destruct (flush_to_pending_oinv _ _ _ _ (i_d _ _ _ _ I) O Hs2) as (v2 & O2 & E2 & Hv). exists s2, v2.
        split; [done|]. split; [|done]. intros x. rewrite E2. cbn. intros [Hy|Hy]; [|by apply not_elem_of_nil in Hy]. apply CV. by apply Hv. }
    exists v2. rewrite E1, E2, E3, E4. split; [|done]. destruct O2. split; try done.
    + by apply C14_sort_keeps_order_partial.
    + intros b q n p r Hq Hn Hp Hc Hr. rewrite isort_perm in Hr. by eapply o_un0.
    + intros b q n r Hq Hr. rewrite isort_perm in Hr. by eapply o_fill0.
    + intros r Hr. rewrite isort_perm in Hr. by apply o_real0.
  - cbn in E. destruct (flush_to_pending_oinv _ _ _ _ (i_d _ _ _ _ I) O E) as (v2 & O2 & E2 & Hv).
    exists v2. split; [done|]. intros x. rewrite E2. cbn. intros [Hy|Hy]; [|by apply not_elem_of_nil in Hy]. apply CV. by apply Hv.
  - cbn [step] in E.
    apply (pool_flush_spec c t U SY) in E as (s1 & s2 & r & hd & b & r2 & E1 & I1 & C1 & E2 & E3 & ->); [|done|done].
    destruct (flush_to_pending_oinv _ _ _ _ (i_d _ _ _ _ I) O E1) as (v2 & O2 & _ & Hv).
    destruct (flush_to_pending_inv _ _ (i_d _ _ _ _ I) E1) as (D1 & _ & ET & _). rewrite C1 in O2.
    pose proof (flush_inner_spec t s1 hs n s2 r D1 C1 E2) as (_ & C2 & _).
    exists v2. cbn. rewrite C2. split.
    + eapply (flush_inner_oinv t a a' v2 s1 hs n s2 r); try done. rewrite ET. exact Hh.
    + intros x [Hy|Hy]; [|by apply not_elem_of_nil in Hy]. apply CV. by apply Hv.
Qed.

(** In every such run every package lists the transactions of each sender in the order of their nonces (up to 20
    entries are sorted by insertion, see [isort]). *)
Theorem C14_orderly_partial c t a u ops s g l s' hs n :
  0 < c → orderly c t a u ops s → consistent ops → pool_package isort s g l = Ok (s', (hs, n)) →
  ∃ sys user, hs = sys ++ user ∧ (∀ h, h ∈ sys → is_Some (sys_get s' h)) ∧ nonce_ordered s' user.
Proof.
  intros HC H (U & SY & HF) HP. destruct (orderly_inv c t U SY a u ops s HC H HF) as (R & I & v & O & _).
  eapply C14_package_order_partial; [|exact HP|].
  - split; [done|]. split; [apply isort_perm|]. split; [by exists U, SY|exact R].
  - intros s1 [->|E]; [apply O|]. destruct (flush_to_pending_oinv _ _ _ _ (i_d _ _ _ _ I) O E) as (v2 & O2 & _). apply O2.
Qed.
Print Assumptions C14_orderly_partial.

Definition a0 : N → N := λ _, 0.
Definition a1 : N → N := λ x, if x =? 7 then 1 else 0.
(** Sender 7 offers nonces 1, 0 and 2 and sender 8 a price in between; a package is taken, a block holds nonce 0 and
    nonce 3 follows. *)
Example C14_orderly_ex : ∃ u ops s s', orderly 100 20 a1 u ops s ∧ consistentb ops = true ∧
  pool_package isort s 0 10 = Ok (s', ([5; 2; 3; 6], 0)).
Proof.
  assert (∃ u ops s s', orderly 100 20 a0 u ops s ∧ consistentb (ops ++ [OFlush [1] 1; OInsert (T 6 7 3 1) true 2]) = true ∧
    step 100 20 isort s (OFlush [1] 1) = Ok s' ∧
    (∃ s'' sp, step 100 20 isort s' (OInsert (T 6 7 3 1) true 2) = Ok s'' ∧ pool_package isort s'' 0 10 = Ok (sp, ([5; 2; 3; 6], 0))) ∧
    (7, 3) ∉ u ∧ (∀ p, p_txmap s !! 1 = Some p → pt_tx p = T 1 7 0 9)) as (u & ops & s & s' & R & C & E & (s'' & sp & E2 & E3) & Hu & Hp).
  { eexists _, _, _, _. split.
    { eapply (or_package _ _ _ _ _ _ 0 10); [eapply (or_insert _ _ _ _ _ _ (T 5 8 0 5) true 0); [eapply (or_insert _ _ _ _ _ _ (T 3 7 2 9) true 2); [eapply (or_insert _ _ _ _ _ _ (T 1 7 0 9) true 0); [eapply (or_insert _ _ _ _ _ _ (T 2 7 1 7) true 1); [apply (or_new 100 20 a0)
        |cbn; lia|cbn; lia|cbn; set_solver|vm_compute; reflexivity]
        |cbn; lia|cbn; lia|cbn; set_solver|vm_compute; reflexivity]
        |cbn; lia|cbn; lia|cbn; set_solver|vm_compute; reflexivity]
        |cbn; lia|cbn; lia|cbn; set_solver|vm_compute; reflexivity]
        |vm_compute; reflexivity]. }
    split; [vm_compute; reflexivity|]. split; [vm_compute; reflexivity|]. split; [do 2 eexists; split; vm_compute; reflexivity|].
    split; [cbn; set_solver|]. intros p Hp. vm_compute in Hp. by injection Hp as <-. }
  do 4 eexists. split; [|split; [|exact E3]].
  - eapply (or_insert _ _ _ _ _ _ (T 6 7 3 1) true 2); [|cbn; lia|by vm_compute|exact Hu|exact E2].
    eapply (or_flush _ _ a0 a1); [exact R|intros x; unfold a0; lia| |exact E].
    intros h p Hh Hp2. apply elem_of_list_singleton in Hh as ->. specialize (Hp p Hp2). unfold psender, pnonce. rewrite Hp. by vm_compute.
  - by rewrite <- app_assoc.
Qed.

(** Nonces used once are not enough when a transaction that timed out is sent again: below the transaction with
    nonce 1 times out (two blocks) and is sent again, with the transactions that follow it still in the pool.  At
    first it is in the pool but in no package; once a block has taken nonce 0 the package lists nonce 2 before it. *)
Definition resent : list op :=
  [OInsert (T 1 7 1 10) true 1; OFlush [] 1; OInsert (T 2 7 0 1) true 0; OInsert (T 3 7 2 1) true 2; OFlush [] 3;
   OInsert (T 4 8 0 5) true 0; OInsert (T 1 7 1 10) true 1].
Definition one_per_place (ops : list op) : Prop :=
  ∀ t1 l1 d1 t2 l2 d2, OInsert t1 l1 d1 ∈ ops → OInsert t2 l2 d2 ∈ ops →
    t_sender t1 = t_sender t2 → t_nonce t1 = t_nonce t2 → t1 = t2.
Definition one_per_placeb (ops : list op) : bool := forallb (λ o1, forallb (λ o2, match o1, o2 with
  | OInsert t1 _ _, OInsert t2 _ _ => if (t_sender t1 =? t_sender t2) && (t_nonce t1 =? t_nonce t2) then bool_decide (t1 = t2) else true
  | _, _ => true end) ops) ops.
Lemma one_per_placeb_ok ops : one_per_placeb ops = true → one_per_place ops.
Proof.
  intros H t1 l1 d1 t2 l2 d2 H1 H2 Es En. unfold one_per_placeb in H. rewrite forallb_forall in H. apply elem_of_list_In in H1, H2.
  specialize (H _ H1). cbn in H. rewrite forallb_forall in H. specialize (H _ H2). cbn in H.
  rewrite Es, En, !N.eqb_refl in H. by apply bool_decide_eq_true in H.
Qed.
Lemma run2_reachable ops s : consistentb ops = true → run 100 2 isort pool_new ops = Ok s → reachable 100 2 isort ops s.
Proof. intros. split; [done|]. split; [apply isort_perm|]. split; [by apply consistentb_ok|done]. Qed.
Lemma run2_package ops (chk : pool → list N → bool) :
  (consistentb ops && one_per_placeb ops && match run 100 2 isort pool_new ops with
   | Ok s => match pool_package isort s 0 10 with Ok (s', (hs, _)) => chk s' hs | _ => false end
   | _ => false end)%bool = true →
  ∃ s s' hs n, reachable 100 2 isort ops s ∧ one_per_place ops ∧ pool_package isort s 0 10 = Ok (s', (hs, n)) ∧ chk s' hs = true.
Proof.
  intros H. apply andb_true_iff in H as [H H3]. apply andb_true_iff in H as [H1 H2].
  destruct (run 100 2 isort pool_new ops) as [s| |] eqn:E; try discriminate.
  destruct (pool_package isort s 0 10) as [[s' [hs n]]| |] eqn:EP; try discriminate.
  exists s, s', hs, n. split; [by apply run2_reachable|]. split; [by apply one_per_placeb_ok|done].
Qed.
Theorem C14_resent_stuck_refuted :
  ∃ ops s s' hs n, reachable 100 2 isort ops s ∧ one_per_place ops ∧ pool_package isort s 0 10 = Ok (s', (hs, n)) ∧
     hs = [2; 3; 4] ∧ pool_get s' 1 = Some (T 1 7 1 10) ∧ pool_get s' 2 = Some (T 2 7 0 1).
Proof.
  exists resent.
  destruct (run2_package resent (λ s' hs, bool_decide (hs = [2; 3; 4]) && bool_decide (pool_get s' 1 = Some (T 1 7 1 10)) &&
    bool_decide (pool_get s' 2 = Some (T 2 7 0 1)))) as (s & s' & hs & n & H1 & H2 & H3 & H4); [vm_compute; reflexivity|].
  exists s, s', hs, n. apply andb_true_iff in H4 as [H4 H5]. apply andb_true_iff in H4 as [H4 H6].
  apply bool_decide_eq_true in H4, H5, H6. auto 10.
Qed.
Print Assumptions C14_resent_stuck_refuted.
Theorem C14_resent_order_refuted :
  ∃ ops s s' hs n, reachable 100 2 isort ops s ∧ one_per_place ops ∧
     pool_package isort s 0 10 = Ok (s', (hs, n)) ∧ ¬ nonce_ordered s' hs.
Proof.
  exists (resent ++ [OFlush [2] 4; OInsert (T 5 7 3 1) true 2]).
  destruct (run2_package (resent ++ [OFlush [2] 4; OInsert (T 5 7 3 1) true 2])
    (λ s' hs, bool_decide (hs = [3; 4; 1; 5]) && bool_decide (pool_get s' 3 = Some (T 3 7 2 1)) &&
      bool_decide (pool_get s' 1 = Some (T 1 7 1 10)))) as (s & s' & hs & n & H1 & H2 & H3 & H4); [vm_compute; reflexivity|].
  exists s, s', hs, n. apply andb_true_iff in H4 as [H4 H5]. apply andb_true_iff in H4 as [H4 H6].
  apply bool_decide_eq_true in H4, H5, H6. subst hs. split; [done|]. split; [done|]. split; [done|]. intros H.
  assert (2 < 1); [|lia]. apply (H 0%nat 2%nat 3 1 (T 3 7 2 1) (T 1 7 1 10)); try done. lia.
Qed.
Print Assumptions C14_resent_order_refuted.
