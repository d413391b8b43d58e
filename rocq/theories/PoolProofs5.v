(** Consequences of the pool invariant used by the property theorems. *)
From Verif Require Import TxModel PoolModel PoolProofs PoolProofs2 PoolProofs3 PoolProofs4.

(** A pooled transaction that has not been dropped. *)
Definition live (s : pool) (p : ptr) : Prop := p_txmap s !! phash p = Some p ∧ ¬ dropped (p_flags s) p.

(** The documented ways an operation may take a live transaction out of circulation. *)
Inductive excuse (timeout_config : N) (s : pool) (p : ptr) : op → Prop :=
| ex_commit hs n : phash p ∈ hs → excuse timeout_config s p (OFlush hs n)
| ex_timeout hs n S : timeout_config <= n → p_gap s !! (n - timeout_config) = Some S → phash p ∈ S →
    excuse timeout_config s p (OFlush hs n)
| ex_superseded hs n p' : phash p' ∈ hs → p_txmap s !! phash p' = Some p' → psender p' = psender p →
    pnonce p <= pnonce p' → excuse timeout_config s p (OFlush hs n)
| ex_drain o s1 : flush_to_pending s = Ok s1 → drop_reason (p_pending s1) p → excuse timeout_config s p o.

Lemma fold_min_in l h : fold_left N.min l h ∈ h :: l.
Proof.
  revert h. induction l as [|x l IH]; intros h; cbn; [set_solver|].
  specialize (IH (N.min h x)). apply elem_of_cons in IH as [->|IH]; [|set_solver].
  destruct (N.min_spec h x) as [[_ ->]|[_ ->]]; set_solver.
Qed.
Lemma least_hash_in b h : least_hash b = Some h → is_Some (b !! h).
Proof.
  unfold least_hash. destruct (map_to_list b).*1 as [|x t] eqn:E; [done|]. intros [= <-].
  pose proof (fold_min_in t x) as H. rewrite <- E in H. apply elem_of_list_fmap in H as ([k v] & -> & H).
  apply elem_of_map_to_list in H. cbn. rewrite H. eauto.
Qed.
Lemma least_hash_None b : least_hash b = None → b = ∅.
Proof.
  unfold least_hash. destruct (map_to_list b).*1 as [|x t] eqn:E; [|done]. intros _.
  apply fmap_nil_inv in E. by apply map_to_list_empty_iff.
Qed.

Section Facts.
Context (capacity timeout_config : N) (sort : list ptr → list ptr) (U : N → ptx) (SY : N → bool).
Hypothesis (sort_perm : ∀ l, sort l ≡ₚ l) (cap_pos : 0 < capacity).
Local Notation Inv := (Inv capacity U SY).

Lemma drain_live s s1 p : Inv s → flush_to_pending s = Ok s1 → live s p → live s1 p ∨ drop_reason (p_pending s1) p.
Proof.
  intros I H [L1 L2].
  destruct (flush_to_pending_inv _ _ (i_d _ _ _ _ I) H) as (_ & _ & E2 & _).
  unfold flush_to_pending in H. destruct (fold_left drain_one _ _) as [[[f pend] real]| |] eqn:E; try discriminate.
  injection H as <-. destruct (drain_loss _ _ _ _ _ _ _ _ _ (i_d _ _ _ _ I) E) as (_ & _ & L). cbn in *.
  destruct (decide (pt_id p ∈ f_drop f)) as [Hd|Hd]; [right; by apply L|left]. split; cbn; done.
Qed.

Lemma step_live s o s' p : Inv s → op_ok U SY o → step capacity timeout_config sort s o = Ok s' →
  live s p → live s' p ∨ excuse timeout_config s p o.
Proof.
  intros I HO H L. destruct o as [tx lim d|tx|g l|hs n|]; cbn in H, HO.
  - destruct (pool_insert capacity s tx lim d) as [s1| |] eqn:E; try discriminate; injection H as <-; [|by left].
    apply (pool_insert_spec capacity U SY) in E as (_ & s2 & Hs2 & I2 & ET & _ & E); [|done|done].
    assert (live s2 p ∨ excuse timeout_config s p (OInsert tx lim d)) as [L2|]; [|left|by right].
    { destruct Hs2 as [->|Hs2]; [by left|]. destruct (drain_live _ _ _ I Hs2 L); [by left|right]. by eapply ex_drain. }
    destruct L2 as [A B]. destruct (p_txmap s !! t_hash tx) eqn:EX; subst s1; split; cbn; auto.
    rewrite lookup_insert_ne; [done|]. rewrite ET in A. congruence.
  - injection H as <-. left. done.
  - destruct (pool_package sort s g l) as [[s1 out]| |] eqn:E; try discriminate; injection H as <-; [|by left].
    unfold pool_package in E. destruct (sys_package_ok s); [|discriminate].
    destruct (bool_decide (p_co s = [])).
    + injection E as <- <-. left. done.
    + destruct (flush_to_pending s) as [s2| |] eqn:E2; try discriminate. injection E as <- <-.
      destruct (drain_live _ _ _ I E2 L) as [[A B]|]; [left; split; done|right; by eapply ex_drain].
  - apply (pool_flush_spec capacity timeout_config U SY) in H as (s1 & s2 & r & hd & b & r2 & E1 & I1 & C1 & E2 & E3 & ->); [|done|done].
    destruct (drain_live _ _ _ I E1 L) as [[A B]|]; [|right; by eapply ex_drain].
    pose proof (i_d _ _ _ _ I1) as D1. rewrite C1 in D1.
    destruct (flush_inner_spec _ _ _ _ _ _ D1 C1 E2) as (D2 & C2 & N2 & H2 & B2 & S2 & R2 & _ & T2 & W2 & _).
    destruct (flush_to_pending_inv _ _ (i_d _ _ _ _ I) E1) as (_ & _ & ET & _ & _ & _ & _ & EG).
    destruct (p_txmap s2 !! phash p) as [p'|] eqn:EP.
    + left. destruct (T2 _ _ EP) as (X1 & X2 & X3 & X4). assert (p' = p) as -> by congruence. split; cbn; done.
    + right. destruct (W2 _ _ A EP B) as [Hh|[Hh|(h' & p' & Hh & Hp' & Hs & Hn)]].
      * by apply ex_commit.
      * unfold timed_out_at in Hh. destruct (timeout_config <=? n) eqn:El; [|set_solver]. apply N.leb_le in El.
        rewrite EG in Hh. destruct (p_gap s !! (n - timeout_config)) as [S|] eqn:ES; cbn in Hh; [|set_solver].
        by eapply ex_timeout.
      * assert (phash p' = h') as <- by (by apply D1 in Hp' as [? _]). rewrite ET in Hp'. by eapply ex_superseded.
  - destruct (drain_live _ _ _ I H L) as [[A B]|]; [left; split; done|right; by eapply ex_drain].
Qed.

(** A hash that is not in circulation: absent, or present only as a dropped transaction. *)
Definition dead (h : N) (s : pool) : Prop :=
  (∀ p, p_txmap s !! h = Some p → dropped (p_flags s) p) ∧ sys_get s h = None.

Definition inserts (o : op) (h : N) : Prop :=
  match o with OInsert tx _ _ | OInsertSys tx => t_hash tx = h | _ => False end.

Lemma drain_dead s s1 h : Inv s → flush_to_pending s = Ok s1 → dead h s → dead h s1.
Proof.
  intros I H [D1 D2]. destruct (flush_to_pending_inv _ _ (i_d _ _ _ _ I) H) as (_ & _ & E2 & _ & E4 & E5 & _).
  split; [|unfold sys_get in *; by rewrite E4, E5].
  rewrite E2. intros p Hp. specialize (D1 p Hp). unfold flush_to_pending in H.
  destruct (fold_left drain_one _ _) as [[[f pend] real]| |] eqn:E; try discriminate.
  injection H as <-. destruct (drain_loss _ _ _ _ _ _ _ _ _ (i_d _ _ _ _ I) E) as (_ & M & _). cbn. by apply M.
Qed.

Lemma sys_get_insert_other s tx h : t_hash tx ≠ h →
  sys_get s h = None → sys_get (pool_insert_sys s tx) h = None.
Proof.
  intros Hne. unfold sys_get, pool_insert_sys. cbn. rewrite lookup_insert_ne by done.
  destruct (p_hash_data s !! h) as [d|]; [|done]. destruct (decide (t_data tx = d)) as [E|].
  - rewrite E, lookup_insert. intros H. rewrite lookup_insert_ne by done.
    destruct (p_buckets s !! d) as [b|]; cbn; [done|apply lookup_empty].
  - by rewrite lookup_insert_ne.
Qed.

Lemma flush_sys_get s hs n s' h : Inv s → pool_flush timeout_config s hs n = Ok s' →
  sys_get s h = None ∨ h ∈ hs → sys_get s' h = None.
Proof.
  intros I H. apply (pool_flush_spec capacity timeout_config U SY) in H as (s1 & s2 & r & hd & b & r2 & E1 & I1 & C1 & E2 & E3 & ->); [|done|done].
  pose proof (i_d _ _ _ _ I1) as D1. rewrite C1 in D1.
  destruct (flush_inner_spec _ _ _ _ _ _ D1 C1 E2) as (_ & _ & _ & H2 & B2 & _).
  destruct (flush_to_pending_inv _ _ (i_d _ _ _ _ I) E1) as (_ & _ & _ & _ & EH & EB & _).
  apply (sys_flush_spec U SY) in E3 as (_ & _ & K1 & K2 & K3 & _); [|rewrite H2, B2; apply I1].
  rewrite H2, EH in K3. rewrite B2, EB in K1.
  unfold sys_get. cbn. intros Hor. destruct (hd !! h) as [d|] eqn:Ed; [|done].
  destruct (b !! d) as [m|] eqn:Em; [|done]. destruct Hor as [Hs|Hh].
  - apply K3 in Ed. apply K1 in Em. by rewrite Ed, Em in Hs.
  - by rewrite K2 in Ed.
Qed.

Lemma step_dead s o s' h : Inv s → op_ok U SY o → ¬ inserts o h →
  step capacity timeout_config sort s o = Ok s' → dead h s → dead h s'.
Proof.
  intros I HO HI H L. destruct o as [tx lim d|tx|g l|hs n|]; cbn in H, HO, HI.
  - destruct (pool_insert capacity s tx lim d) as [s1| |] eqn:E; try discriminate; injection H as <-; [|done].
    apply (pool_insert_spec capacity U SY) in E as (_ & s2 & Hs2 & I2 & ET & _ & E); [|done|done].
    assert (dead h s2) as [A B] by (destruct Hs2 as [->|Hs2]; [done|]; exact (drain_dead _ _ _ I Hs2 L)).
    destruct (p_txmap s !! t_hash tx) eqn:EX; subst s1; split; cbn; auto.
    rewrite lookup_insert_ne by done. done.
  - injection H as <-. destruct L as [A B]. split; [exact A|]. by apply sys_get_insert_other.
  - destruct (pool_package sort s g l) as [[s1 out]| |] eqn:E; try discriminate; injection H as <-; [|done].
    unfold pool_package in E. destruct (sys_package_ok s); [|discriminate].
    destruct (bool_decide (p_co s = [])); [by injection E as <- <-|].
    destruct (flush_to_pending s) as [s2| |] eqn:E2; try discriminate. injection E as <- <-.
    by destruct (drain_dead _ _ _ I E2 L).
  - split; [|eapply flush_sys_get; eauto; left; apply L].
    apply (pool_flush_spec capacity timeout_config U SY) in H as (s1 & s2 & r & hd & b & r2 & E1 & I1 & C1 & E2 & E3 & ->); [|done|done].
    destruct (drain_dead _ _ _ I E1 L) as [A _].
    pose proof (i_d _ _ _ _ I1) as D1. rewrite C1 in D1.
    destruct (flush_inner_spec _ _ _ _ _ _ D1 C1 E2) as (_ & _ & _ & _ & _ & _ & _ & _ & T2 & _).
    cbn. intros p Hp. destruct (T2 _ _ Hp) as (X1 & _ & X & _). by apply A in X1.
  - by eapply drain_dead.
Qed.

Lemma flush_kills s hs n s' h : Inv s → pool_flush timeout_config s hs n = Ok s' → h ∈ hs →
  p_txmap s' !! h = None ∧ sys_get s' h = None.
Proof.
  intros I H Hh. split; [|eapply flush_sys_get; eauto].
  apply (pool_flush_spec capacity timeout_config U SY) in H as (s1 & s2 & r & hd & b & r2 & E1 & I1 & C1 & E2 & E3 & ->); [|done|done].
  pose proof (i_d _ _ _ _ I1) as D1. rewrite C1 in D1.
  destruct (flush_inner_spec _ _ _ _ _ _ D1 C1 E2) as (_ & _ & _ & _ & _ & _ & _ & _ & T2 & _).
  cbn. destruct (p_txmap s2 !! h) as [p|] eqn:E; [|done]. by destruct (T2 _ _ E) as (_ & [] & _).
Qed.

Lemma run_app s ops1 ops2 :
  run capacity timeout_config sort s (ops1 ++ ops2) =
  match run capacity timeout_config sort s ops1 with Ok s1 => run capacity timeout_config sort s1 ops2 | Err => Err | Panic => Panic end.
Proof.
  revert s. induction ops1 as [|o r IH]; intros s; cbn; [done|].
  destruct (step _ _ _ s o); cbn; auto.
Qed.

Lemma run_dead ops s s' h : Inv s → Forall (op_ok U SY) ops → Forall (λ o, ¬ inserts o h) ops →
  run capacity timeout_config sort s ops = Ok s' → dead h s → dead h s'.
Proof.
  revert s. induction ops as [|o ops IH]; intros s I HO HI H L; cbn in H; [by injection H as <-|].
  apply Forall_cons in HO as [HO HOs]. apply Forall_cons in HI as [HI HIs].
  destruct (step _ _ _ s o) as [s1| |] eqn:E; try discriminate.
  eapply (IH s1); eauto; [by eapply step_inv|by eapply step_dead].
Qed.

(** ** What a package returns *)
Lemma sys_package_spec s : Inv s →
  NoDup (sys_package s) ∧ length (sys_package s) = size (p_buckets s) ∧ sys_package_ok s = true ∧
  (∀ h, h ∈ sys_package s → ∃ tx, sys_get s h = Some tx ∧ t_hash tx = h ∧ SY h = true) ∧
  (∀ h tx, sys_get s h = Some tx → ∃ h' tx', h' ∈ sys_package s ∧ sys_get s h' = Some tx' ∧ t_data tx' = t_data tx).
Proof using capacity U SY.
  clear sort_perm cap_pos sort timeout_config.
  intros I. unfold sys_package, sys_package_ok.
  assert (∀ d b, (d, b) ∈ map_to_list (p_buckets s) → ∃ h tx, least_hash b = Some h ∧ b !! h = Some tx ∧
    t_hash tx = h ∧ t_data tx = d ∧ p_hash_data s !! h = Some d ∧ SY h = true) as HB.
  { intros d b Hd. apply elem_of_map_to_list in Hd. destruct (i_bk _ _ _ _ I d b Hd) as [HN HE].
    destruct (least_hash b) as [h|] eqn:El; [|by apply least_hash_None in El].
    destruct (least_hash_in b h El) as [tx Ht]. destruct (HE h tx Ht) as (?&?&?&?&?). eauto 10. }
  split; [|split; [|split; [|split]]].
  - pose proof (NoDup_fst_map_to_list (p_buckets s)) as ND. revert ND HB.
    generalize (map_to_list (p_buckets s)) as l. induction l as [|[d b] l IH]; intros ND HB; [constructor|].
    cbn in ND. apply NoDup_cons in ND as [Nd ND]. cbn [omap list_omap snd].
    destruct (HB d b) as (h & tx & El & Et & _ & Hd & Hh & _); [set_solver|]. cbn. rewrite El.
    constructor; [|apply IH; [done|intros; apply HB; set_solver]].
    intros Hin. apply elem_of_list_omap in Hin as ([d' b'] & Hin & El'). cbn in El'.
    destruct (HB d' b') as (h' & tx' & El2 & _ & _ & _ & Hh' & _); [set_solver|].
    assert (h' = h) as -> by congruence. assert (d' = d) as -> by congruence. apply Nd, elem_of_list_fmap. by exists (d, b').
  - transitivity (length (map_to_list (p_buckets s))); [|done]. revert HB.
    generalize (map_to_list (p_buckets s)) as l. induction l as [|[d b] l IH]; intros HB; [done|].
    cbn [omap list_omap snd]. destruct (HB d b) as (h & tx & El & _); [set_solver|]. cbn. rewrite El. cbn. f_equal.
    apply IH. intros; apply HB; set_solver.
  - apply forallb_forall. intros [d b] Hd. apply elem_of_list_In, elem_of_map_to_list in Hd. cbn.
    apply bool_decide_eq_true. by destruct (i_bk _ _ _ _ I d b Hd).
  - intros h Hh. apply elem_of_list_omap in Hh as ([d b] & Hin & El). cbn in El.
    destruct (HB d b Hin) as (h' & tx & El' & Et & Eh & _ & Hhd & HS). assert (h' = h) as -> by congruence.
    exists tx. unfold sys_get. apply elem_of_map_to_list in Hin. by rewrite Hhd, Hin.
  - intros h tx Hg. unfold sys_get in Hg. destruct (p_hash_data s !! h) as [d|] eqn:Ed; [|done].
    destruct (p_buckets s !! d) as [b|] eqn:Eb; [|done].
    destruct (i_bk _ _ _ _ I d b Eb) as [_ HE]. destruct (HE h tx Hg) as (_ & _ & Hd & _).
    apply elem_of_map_to_list in Eb as Hin. destruct (HB d b Hin) as (h' & tx' & El' & Et & _ & Hd' & Hhd & _).
    exists h', tx'. split; [|unfold sys_get; rewrite Hhd, Eb; split; [done|congruence]].
    apply elem_of_list_omap. exists (d, b). done.
Qed.

Lemma package_spec s g l s' hs c : Inv s → pool_package sort s g l = Ok (s', (hs, c)) →
  ∃ user, hs = sys_package s' ++ (phash <$> user) ∧ c = N.of_nat (size (p_buckets s')) mod 2^32 ∧
    user = take l (filter (λ p, is_dropped (p_flags s') p = false) (p_real s')) ∧ Inv s' ∧ p_co s' = [].
Proof.
  intros I H. pose proof (package_inv capacity sort U SY sort_perm cap_pos _ _ _ _ _ I H) as I'. unfold pool_package in H.
  destruct (sys_package_spec s I) as (_ & HL & HO & _). rewrite HO in H.
  assert (∃ s1, (if bool_decide (p_co s = []) then Ok s else flush_to_pending s) = Ok s1 ∧ p_co s1 = [] ∧ p_buckets s1 = p_buckets s) as (s1 & E & C1 & B1).
  { destruct (bool_decide (p_co s = [])) eqn:Eb; [apply bool_decide_eq_true in Eb; eauto|].
    destruct (flush_to_pending s) eqn:E; try discriminate. exists a. split; [done|].
    destruct (flush_to_pending_inv _ _ (i_d _ _ _ _ I) E) as (_ & ? & _ & _ & _ & ? & _). done. }
  rewrite E in H. injection H as <- <- <-.
  exists (take l (filter (λ p, is_dropped (p_flags s1) p = false) (sort (p_real s1)))).
  rewrite fmap_take. cbn [p_flags p_real p_buckets p_co]. rewrite B1, <- HL. split; [|split; [done|split; [done|split; [rewrite B1 in I'; exact I'|exact C1]]]].
  done.
Qed.
End Facts.
