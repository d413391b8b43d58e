(** Pool invariant through flush and over whole runs. *)
From Verif Require Import TxModel PoolModel PoolProofs.

(** Number of system transactions held. *)
Definition sys_total (b : gmap (list N) (gmap N ptx)) : N :=
  map_fold (λ _ m acc, N.of_nat (size m) + acc) 0 b.

Lemma sys_total_insert b d m : b !! d = None → sys_total (<[d := m]> b) = N.of_nat (size m) + sys_total b.
Proof. intros H. unfold sys_total. rewrite map_fold_insert_L; [done| |done]. intros. lia. Qed.
Lemma sys_total_delete b d m : b !! d = Some m → sys_total b = N.of_nat (size m) + sys_total (delete d b).
Proof. intros H. rewrite <- (sys_total_insert (delete d b) d m) by apply lookup_delete. by rewrite insert_delete. Qed.
Lemma sys_total_replace b d m m' : b !! d = Some m →
  sys_total (<[d := m']> b) + N.of_nat (size m) = sys_total b + N.of_nat (size m').
Proof.
  intros H. rewrite (sys_total_delete b d m) by done. rewrite <- (insert_delete_insert b).
  rewrite sys_total_insert by apply lookup_delete. lia.
Qed.
Lemma sys_total_empty : sys_total ∅ = 0.
Proof. apply map_fold_empty. Qed.

Lemma size_nonempty {A} (m : gmap N A) : m ≠ ∅ → (1 ≤ size m)%nat.
Proof. intros H. destruct (size m) eqn:E; [|lia]. by apply map_size_empty_inv in E. Qed.

Lemma size_filter_split {A} (P : A → bool) (m : gmap N A) :
  (size (filter (λ kv : N * A, P kv.2 = true) m) + size (filter (λ kv : N * A, P kv.2 = false) m) = size m)%nat.
Proof.
  rewrite <- map_size_disj_union.
  - f_equal. apply map_eq. intros i. rewrite lookup_union.
    destruct (m !! i) as [x|] eqn:E.
    + destruct (P x) eqn:EP.
      * rewrite (map_filter_lookup_Some_2 _ m i x) by done.
        rewrite (proj2 (map_filter_lookup_None _ m i)); [done|]. right. intros y Hy. cbn. congruence.
      * rewrite (proj2 (map_filter_lookup_None _ m i)); [|right; intros y Hy; cbn; congruence].
        by rewrite (map_filter_lookup_Some_2 _ m i x).
    + rewrite !(proj2 (map_filter_lookup_None _ m i)); auto.
  - apply map_disjoint_spec. intros i x y Hx Hy.
    apply map_filter_lookup_Some in Hx as [Hx ?]. apply map_filter_lookup_Some in Hy as [Hy ?]. cbn in *. congruence.
Qed.

(* ---------------- flush_inner ---------------- *)
Lemma remove_all_spec tm hs m tips r :
  (∀ h p, tm !! h = Some p → phash p = h) →
  fold_left remove_one hs (tm, ∅, 0) = (m, tips, r) →
  (∀ h, m !! h = if decide (h ∈ hs) then None else tm !! h) ∧
  (∀ a v, tips !! a = Some v → ∃ h p, h ∈ hs ∧ tm !! h = Some p ∧ psender p = a ∧ pnonce p = v) ∧
  (∀ h p, h ∈ hs → tm !! h = Some p → ∃ v, tips !! psender p = Some v ∧ pnonce p <= v) ∧
  N.of_nat (size m) + r = N.of_nat (size tm).
Proof.
  intros HH. revert m tips r. induction hs as [|h hs IH] using rev_ind; intros m tips r.
  - cbn. intros [= <- <- <-]. split; [|split; [|split]].
    + intros h. rewrite decide_False; [done|apply not_elem_of_nil].
    + intros a v H. by rewrite lookup_empty in H.
    + intros h p H. by apply not_elem_of_nil in H.
    + lia.
  - rewrite fold_left_app. cbn [fold_left].
    destruct (fold_left remove_one hs (tm, ∅, 0)) as [[m0 tips0] r0] eqn:E0.
    destruct (IH m0 tips0 r0 eq_refl) as (H1 & H2 & H3 & H4). unfold remove_one.
    destruct (m0 !! h) as [p|] eqn:Eh.
    + intros [= <- <- <-].
      assert (h ∉ hs ∧ tm !! h = Some p) as [Hn Htm].
      { rewrite H1 in Eh. by destruct (decide (h ∈ hs)). }
      split; [|split; [|split]].
      * intros h'. destruct (decide (h' = h)) as [->|].
        -- rewrite lookup_delete, decide_True; [done|set_solver].
        -- rewrite lookup_delete_ne by done. rewrite H1. destruct (decide (h' ∈ hs)).
           ++ rewrite decide_True; [done|set_solver].
           ++ rewrite decide_False; [done|set_solver].
      * intros a v Hv. destruct (decide (a = psender p)) as [->|].
        -- rewrite lookup_insert in Hv. injection Hv as Hv.
           destruct (tips0 !! psender p) as [v0|] eqn:Ev.
           ++ destruct (v0 <? pnonce p).
              ** exists h, p. repeat split; auto. set_solver.
              ** destruct (H2 _ _ Ev) as (h0 & p0 & ? & ? & ? & ?). exists h0, p0. repeat split; auto; [set_solver|congruence].
           ++ exists h, p. repeat split; auto. set_solver.
        -- rewrite lookup_insert_ne in Hv by done. destruct (H2 _ _ Hv) as (h0 & p0 & ? & ?).
           exists h0, p0. split; [set_solver|done].
      * intros h' p' Hin Hp'. apply elem_of_app in Hin as [Hin|Hin%elem_of_list_singleton].
        -- destruct (H3 h' p' Hin Hp') as (v & Hv & Hle). destruct (decide (psender p' = psender p)) as [Es|].
           ++ rewrite Es in Hv |- *. rewrite lookup_insert, Hv. eexists. split; [done|].
              destruct (v <? pnonce p) eqn:El; [apply N.ltb_lt in El; lia|lia].
           ++ exists v. by rewrite lookup_insert_ne.
        -- subst h'. assert (p' = p) as -> by congruence. rewrite lookup_insert. eexists. split; [done|].
           destruct (tips0 !! psender p) as [v0|]; [|lia].
           destruct (v0 <? pnonce p) eqn:El; [lia|apply N.ltb_ge in El; lia].
      * rewrite map_size_delete_Some by eauto. 
        assert (size m0 ≠ 0%nat). { intros X. apply map_size_empty_inv in X. subst. by rewrite lookup_empty in Eh. }
        lia.
    + intros [= <- <- <-]. split; [|split; [|split]].
      * intros h'. rewrite H1. destruct (decide (h' ∈ hs)).
        -- rewrite decide_True; [done|set_solver].
        -- destruct (decide (h' = h)) as [->|].
           ++ rewrite decide_True by set_solver. rewrite H1 in Eh. by destruct (decide (h ∈ hs)).
           ++ rewrite decide_False; [done|set_solver].
      * intros a v Hv. destruct (H2 _ _ Hv) as (h0 & p0 & ? & ?). exists h0, p0. split; [set_solver|done].
      * intros h' p' Hin Hp'. apply elem_of_app in Hin as [Hin|Hin%elem_of_list_singleton]; [by eapply H3|].
        subst h'. apply (H3 h p'); [|done]. rewrite H1 in Eh. destruct (decide (h ∈ hs)); [done|congruence].
      * lia.
Qed.

Lemma tip_dropped_spec pend tips i :
  i ∈ tip_dropped pend tips ↔
  ∃ a q v n p, pend !! a = Some q ∧ tips !! a = Some v ∧ q_map q !! n = Some p ∧ n <= v ∧ i = pt_id p.
Proof.
  unfold tip_dropped. rewrite elem_of_list_to_set, elem_of_list_bind. split.
  - intros ([a q] & Hi & Hm). apply elem_of_map_to_list in Hm. cbn in Hi.
    destruct (tips !! a) as [v|] eqn:Ev; [|by apply not_elem_of_nil in Hi].
    apply elem_of_list_fmap in Hi as ([n p] & -> & Hf). apply elem_of_list_filter in Hf as [Hle Hf].
    apply elem_of_map_to_list in Hf. exists a, q, v, n, p. auto.
  - intros (a & q & v & n & p & Ha & Hv & Hn & Hle & ->). exists (a, q). cbn.
    rewrite Hv. split; [|by apply elem_of_map_to_list].
    apply elem_of_list_fmap. exists (n, p). split; [done|]. apply elem_of_list_filter.
    split; [done|]. by apply elem_of_map_to_list.
Qed.
Lemma tip_queues_spec pend tips a q' :
  tip_queues pend tips !! a = Some q' → ∃ q, pend !! a = Some q ∧ q_map q' = q_map q ∧ q_rm q' = q_rm q ∧
    match tips !! a with Some v => q_cur q' = v + 1 ∧ q_pop q' = v + 1 | None => q' = q end.
Proof.
  unfold tip_queues. rewrite map_lookup_imap. destruct (pend !! a) as [q|]; cbn; [|done].
  intros [= <-]. exists q. by destruct (tips !! a).
Qed.
Lemma tip_queues_lookup pend tips a q :
  pend !! a = Some q → ∃ q', tip_queues pend tips !! a = Some q' ∧ q_map q' = q_map q.
Proof.
  unfold tip_queues. rewrite map_lookup_imap. intros ->. cbn. eexists. split; [done|]. by destruct (tips !! a).
Qed.

(** What a flush removes and why, and that the structures stay consistent. *)
Section Flush.
Variable timeout_config : N.

Definition timed_out_at (s : pool) (number : N) : gset N :=
  if timeout_config <=? number then default ∅ (p_gap s !! (number - timeout_config)) else ∅.

Lemma flush_inner_spec s hs number s' r :
  DInv (p_txmap s) (p_next s) (p_flags s) (p_pending s) (p_real s) [] → p_co s = [] →
  flush_inner timeout_config s hs number = Ok (s', r) →
  DInv (p_txmap s') (p_next s') (p_flags s') (p_pending s') (p_real s') [] ∧
  p_co s' = [] ∧ p_next s' = p_next s ∧ p_hash_data s' = p_hash_data s ∧ p_buckets s' = p_buckets s ∧
  p_stock s' = p_stock s ∧ N.of_nat (size (p_txmap s')) + r = N.of_nat (size (p_txmap s)) ∧
  (∀ i, i ∈ f_drop (p_flags s) → i ∈ f_drop (p_flags s')) ∧
  (∀ h p, p_txmap s' !! h = Some p → p_txmap s !! h = Some p ∧ h ∉ hs ∧ ¬ dropped (p_flags s) p ∧ ¬ dropped (p_flags s') p) ∧
  (∀ h p, p_txmap s !! h = Some p → p_txmap s' !! h = None → ¬ dropped (p_flags s) p →
     h ∈ hs ∨ h ∈ timed_out_at s number ∨
     ∃ h' p', h' ∈ hs ∧ p_txmap s !! h' = Some p' ∧ psender p' = psender p ∧ pnonce p <= pnonce p') ∧
  (∀ h p h' p', p_txmap s' !! h = Some p → h' ∈ hs → p_txmap s !! h' = Some p' → psender p' = psender p → pnonce p' < pnonce p) ∧
  p_gap s' = (let g := if timeout_config <=? number then delete (number - timeout_config) (p_gap s) else p_gap s in
     <[number := default ∅ (g !! number) ∪ dom (p_txmap s')]> g).
Proof.
  intros D Hco H. unfold flush_inner in H.
  destruct (fold_left remove_one hs (p_txmap s, ∅, 0)) as [[m tips] red] eqn:ER.
  apply remove_all_spec in ER as (M1 & M2 & M3 & M4); [|intros h p Hp; by apply D in Hp as [? ?]].
  destruct (tip_panics _ _); [discriminate|].
  set (f1 := Flags (tip_dropped (p_pending s) tips ∪ f_drop (p_flags s)) (f_pkg (p_flags s))) in H.
  fold (timed_out_at s number) in H.
  set (keep := λ p : ptr, negb (is_dropped f1 p) && negb (bool_decide (phash p ∈ timed_out_at s number))) in H.
  set (m1 := filter (λ kv : N * ptr, keep kv.2 = true) m) in H.
  set (gone := filter (λ kv : N * ptr, keep kv.2 = false) m) in H.
  set (f2 := Flags (list_to_set ((λ kv : N * ptr, pt_id kv.2) <$> map_to_list gone) ∪ f_drop f1) (f_pkg f1)) in H.
  injection H as <- <-. cbn [p_txmap p_next p_flags p_pending p_real p_co p_hash_data p_buckets p_stock].
  assert (∀ p, dropped f1 p ↔ (∃ a q v n p', p_pending s !! a = Some q ∧ tips !! a = Some v ∧
     q_map q !! n = Some p' ∧ n <= v ∧ pt_id p = pt_id p') ∨ dropped (p_flags s) p) as F1.
  { intros p. unfold dropped, f1. cbn. rewrite elem_of_union, tip_dropped_spec. done. }
  assert (∀ p, dropped f2 p ↔ (∃ h' p', gone !! h' = Some p' ∧ pt_id p = pt_id p') ∨ dropped f1 p) as F2.
  { intros p. unfold dropped, f2. cbn. rewrite elem_of_union, elem_of_list_to_set, elem_of_list_fmap. split.
    - intros [([h' p'] & Hi & Hm)|]; [|by right]. apply elem_of_map_to_list in Hm. left. eauto.
    - intros [(h' & p' & Hg & Hi)|]; [|by right]. left. exists (h', p'). split; [done|]. by apply elem_of_map_to_list. }
  assert (∀ h p, m !! h = Some p ↔ p_txmap s !! h = Some p ∧ h ∉ hs) as M.
  { intros h p. rewrite M1. destruct (decide (h ∈ hs)); intuition congruence. }
  assert (∀ h p, m1 !! h = Some p ↔ p_txmap s !! h = Some p ∧ h ∉ hs ∧ keep p = true) as MM1.
  { intros h p. unfold m1. rewrite map_filter_lookup_Some, M. cbn. tauto. }
  assert (∀ h p, gone !! h = Some p ↔ p_txmap s !! h = Some p ∧ h ∉ hs ∧ keep p = false) as MG.
  { intros h p. unfold gone. rewrite map_filter_lookup_Some, M. cbn. tauto. }
  assert (∀ h p, p_txmap s !! h = Some p → (m1 !! h = Some p ↔ ¬ dropped f2 p ∧ h ∉ hs)) as K.
  { intros h p Hp. rewrite MM1. split.
    - intros (_ & Hh & Hk). split; [|done]. rewrite F2. intros [(h' & p' & Hg & Hi)|Hd].
      + apply MG in Hg as (Hg1 & Hg2 & Hg3). assert (p = p') as <- by (by eapply D). congruence.
      + unfold keep in Hk. apply andb_true_iff in Hk as [Hk _]. rewrite negb_true_iff, is_dropped_false in Hk. done.
    - intros [Hd Hh]. split; [done|]. split; [done|]. destruct (keep p) eqn:Ek; [done|]. exfalso.
      apply Hd, F2. left. exists h, p. split; [by apply MG|done]. }
  (* a live transaction in real or pending whose hash is removed gets dropped *)
  assert (∀ h p, p_txmap s !! h = Some p → ¬ dropped f2 p → h ∉ hs) as LH.
  { intros h p Hp Hd Hh. apply Hd, F2. right. destruct (decide (pt_id p ∈ f_drop (p_flags s))) as [|Hnd]; [apply F1; by right|].
    apply F1. left. destruct (d_live _ _ _ _ _ _ D h p Hp Hnd) as [Hc|(q & Hq & Hn)]; [by apply not_elem_of_nil in Hc|].
    destruct (M3 h p Hh Hp) as (v & Hv & Hle). exists (psender p), q, v, (pnonce p), p. auto. }
  assert (∀ p, p_txmap s !! phash p = Some p → ¬ dropped f2 p → m1 !! phash p = Some p) as LM.
  { intros p Hp Hd. apply K; [done|]. split; [done|]. by eapply LH. }
  split; [split|].
  - intros h p Hp. apply MM1 in Hp as (Hp & _). by eapply D.
  - intros h1 h2 p1 p2 H1 H2. apply MM1 in H1 as (H1 & _). apply MM1 in H2 as (H2 & _). by eapply D.
  - intros p Hp. by apply not_elem_of_nil in Hp.
  - constructor.
  - intros p Hp. apply elem_of_list_filter in Hp as [Hd Hp]. apply is_dropped_false in Hd.
    destruct (d_real _ _ _ _ _ _ D p Hp) as [Hp1 Hp2]. split; [by apply LM|done].
  - apply NoDup_filter. apply D.
  - intros a q n p Hq Hn. apply map_filter_lookup_Some in Hq as [Hq Hrm].
    rewrite lookup_fmap_Some in Hq. destruct Hq as (q0 & <- & Hq0). cbn in Hn.
    apply map_filter_lookup_Some in Hn as [Hn Hd]. cbn in Hd. apply is_dropped_false in Hd.
    apply tip_queues_spec in Hq0 as (q1 & Hq1 & Eq1 & _). rewrite Eq1 in Hn.
    destruct (d_pend _ _ _ _ _ _ D a q1 n p Hq1 Hn) as (?&?&?&?&?). repeat split; auto.
  - intros h p Hp Hd. apply MM1 in Hp as (Hp & Hh & Hk). right.
    assert (¬ dropped (p_flags s) p) as Hnd. { intros X. apply Hd, F2. right. apply F1. by right. }
    destruct (d_live _ _ _ _ _ _ D h p Hp Hnd) as [Hc|(q & Hq & Hn)]; [by apply not_elem_of_nil in Hc|].
    destruct (tip_queues_lookup _ tips _ _ Hq) as (q' & Hq' & Eq').
    exists (pq_clear f2 q'). split.
    + apply map_filter_lookup_Some. rewrite lookup_fmap, Hq'. split; [done|]. cbn.
      apply tip_queues_spec in Hq' as (q0 & Hq0 & _ & Erm & _).
      rewrite bool_decide_eq_false_2 by (rewrite Eq'; intros X; rewrite X in Hn; by rewrite lookup_empty in Hn).
      rewrite Erm. by eapply D.
    + cbn. apply map_filter_lookup_Some. rewrite Eq'. split; [done|]. cbn. by apply is_dropped_false.
  - intros h p Hp Hd Hk. apply MM1 in Hp as (Hp & Hh & _). apply elem_of_list_filter. split; [by apply is_dropped_false|].
    eapply (d_pkg _ _ _ _ _ _ D); [done| |done]. intros X. apply Hd, F2. right. apply F1. by right.
  - intros i [Hi|Hi].
    + cbn in Hi. apply elem_of_union in Hi as [Hi|Hi].
      * apply elem_of_list_to_set, elem_of_list_fmap in Hi as ([h p] & -> & Hm). apply elem_of_map_to_list in Hm.
        apply MG in Hm as (Hm & _). by apply D in Hm as [_ ?].
      * apply elem_of_union in Hi as [Hi|Hi]; [|apply (d_flags _ _ _ _ _ _ D); by left].
        apply tip_dropped_spec in Hi as (a & q & v & n & p & Ha & _ & Hn & _ & ->).
        destruct (d_pend _ _ _ _ _ _ D a q n p Ha Hn) as (X & _). by apply D in X as [_ ?].
    + apply (d_flags _ _ _ _ _ _ D). by right.
  - intros a q Hq. apply map_filter_lookup_Some in Hq as [Hq Hrm].
    rewrite lookup_fmap_Some in Hq. destruct Hq as (q0 & <- & Hq0). cbn.
    apply tip_queues_spec in Hq0 as (q1 & Hq1 & Eq1 & _). rewrite Eq1.
    etrans; [|by eapply (d_len _ _ _ _ _ _ D)]. rewrite <- !(size_dom (D:=gset N)).
    apply subseteq_size, subseteq_dom, map_filter_subseteq.
  - intros a q Hq. by apply map_filter_lookup_Some in Hq as [_ Hrm].
  - split; [done|]. split; [done|]. split; [done|]. split; [done|]. split; [done|]. split; [|split; [|split; [|split; [|split]]]].
    + assert (size m1 + size gone = size m)%nat as Hs by apply (size_filter_split keep m). change (N.of_nat (size m1) + (red + N.of_nat (size gone)) = N.of_nat (size (p_txmap s))). clear -Hs M4. clearbody m1 gone. lia.
    + intros i Hi. cbn. rewrite !elem_of_union. auto.
    + intros h p Hp. apply MM1 in Hp as (Hp & Hh & Hk). split; [done|]. split; [done|].
      assert (¬ dropped f2 p) as Hd by (apply (K h p Hp); by apply MM1). split; [|done].
      intros X. apply Hd, F2. right. apply F1. by right.
    + intros h p Hp Hn Hnd. destruct (decide (h ∈ hs)) as [|Hh]; [by left|]. right.
      destruct (keep p) eqn:Ek; [exfalso; change (m1 !! h = None) in Hn; rewrite (proj2 (MM1 h p)) in Hn; done|].
      unfold keep in Ek. apply andb_false_iff in Ek as [Ek|Ek]; rewrite negb_false_iff in Ek.
      * right. apply is_dropped_true, F1 in Ek as [(a & q & v & n & p' & Ha & Hv & Hq & Hle & Hi)|]; [|done].
        destruct (d_pend _ _ _ _ _ _ D a q n p' Ha Hq) as (X1 & X2 & X3 & _).
        assert (p = p') as <- by (by eapply D). destruct (M2 _ _ Hv) as (h' & p' & Y1 & Y2 & Y3 & Y4).
        exists h', p'. repeat split; auto; lia || congruence.
      * left. apply bool_decide_eq_true in Ek. by apply D in Hp as [<- _].
    + intros h p h' p' Hp Hh' Hp' Hs. apply MM1 in Hp as Hp2. destruct Hp2 as (Hp1 & Hh & Hk).
      assert (¬ dropped f2 p) as Hd by (apply (K h p Hp1); by apply MM1).
      destruct (decide (pnonce p <= pnonce p')) as [Hle|]; [|lia]. exfalso. apply Hd, F2. right. apply F1.
      destruct (decide (pt_id p ∈ f_drop (p_flags s))) as [|Hnd]; [by right|]. left.
      destruct (d_live _ _ _ _ _ _ D h p Hp1 Hnd) as [Hc|(q & Hq & Hn)]; [by apply not_elem_of_nil in Hc|].
      destruct (M3 h' p' Hh' Hp') as (v & Hv & Hle2). exists (psender p), q, v, (pnonce p), p.
      repeat split; auto; [congruence|lia].
    + done.
Qed.
End Flush.
