(** C99: a signed transaction takes effect at most once. *)
From Verif Require Import Bytes Rlp Keccak TxModel TxExamples PoolModel PoolProofs PoolProofs2 PoolProofs3 PoolProofs4 PoolProofs5 PoolProps
  MempoolModel MempoolProps ExecModel ExecProps ReplayModel.
From stdpp Require Import base gmap list.
From Coq Require Import Lia.
Local Open Scope N_scope.

(* ---------------------------------------------------------------- *)
(** * What pool operations do to the set of hashes *)
Lemma contains_maps s s' : p_txmap s' = p_txmap s → p_hash_data s' = p_hash_data s → p_buckets s' = p_buckets s →
  ∀ h, pool_contains s' h = pool_contains s h.
Proof. intros A B C h. unfold pool_contains, sys_contains. by rewrite A, B, C. Qed.

Lemma put_contains c s t sys lim d s' : put c s t sys lim d = Ok s' →
  ∀ h, pool_contains s' h = true → pool_contains s h = true ∨ h = hash_of t.
Proof.
  unfold put. destruct sys.
  - intros [= <-] h H. destruct (decide (h = hash_of t)) as [->|NE]; [by right|]. left. revert H.
    unfold pool_contains, sys_contains, pool_insert_sys. cbn [p_txmap p_hash_data p_buckets ptx_of t_hash t_data].
    destruct (p_txmap s !! h); [done|]. rewrite lookup_insert_ne by done. destruct (p_hash_data s !! h) as [d'|]; [|done].
    destruct (decide (d' = tx_data (unsigned_of t))) as [->|N2].
    + rewrite lookup_insert, lookup_insert_ne by done. match goal with |- context [default ∅ ?o] => destruct o as [b|] eqn:E end; [done|]. by cbn.
    + by rewrite lookup_insert_ne.
  - intros H h. apply pool_insert_same in H as (E1 & E2 & E3). cbn [ptx_of t_hash] in E3.
    unfold pool_contains, sys_contains. rewrite E1, E2. destruct E3 as [[-> _]|[_ [i ->]]]; [by left|].
    destruct (decide (h = hash_of t)) as [->|NE]; [by right|]. rewrite lookup_insert_ne by done. by left.
Qed.

Lemma remove_fold hs : ∀ m tips r m' tips' r', fold_left remove_one hs (m, tips, r) = (m', tips', r') →
  ∀ h, is_Some (m' !! h) → is_Some (m !! h) ∧ h ∉ hs.
Proof.
  induction hs as [|x hs IH]; intros m tips r m' tips' r'; cbn [fold_left].
  - intros [= <- _ _] h S. split; [done|apply not_elem_of_nil].
  - unfold remove_one at 2. destruct (m !! x) as [p|] eqn:E; intros F h S.
    + destruct (IH _ _ _ _ _ _ F h S) as [S1 N1]. destruct (decide (h = x)) as [->|NE].
      * rewrite lookup_delete in S1. by destruct S1.
      * rewrite lookup_delete_ne in S1 by done. split; [done|]. apply not_elem_of_cons. done.
    + destruct (IH _ _ _ _ _ _ F h S) as [S1 N1]. split; [done|]. apply not_elem_of_cons. split; [|done].
      intros ->. rewrite E in S1. by destruct S1.
Qed.
Lemma sys_fold hs : ∀ hd b r hd' b' r', fold_left sys_flush_one hs (hd, b, r) = (hd', b', r') →
  ∀ h d x, hd' !! h = Some d → b' !! d = Some x → hd !! h = Some d ∧ b !! d = Some x ∧ h ∉ hs.
Proof.
  induction hs as [|y hs IH]; intros hd b r hd' b' r'; cbn [fold_left].
  - intros [= <- <- _] h d x A C. split; [done|]. split; [done|apply not_elem_of_nil].
  - unfold sys_flush_one at 2. destruct (hd !! y) as [dy|] eqn:E; intros F h d x A C.
    + destruct (IH _ _ _ _ _ _ F h d x A C) as (A1 & C1 & N1). destruct (decide (h = y)) as [->|NE]; [by rewrite lookup_delete in A1|].
      rewrite lookup_delete_ne in A1 by done. destruct (decide (d = dy)) as [->|ND]; [by rewrite lookup_delete in C1|].
      rewrite lookup_delete_ne in C1 by done. split; [done|]. split; [done|]. by apply not_elem_of_cons.
    + destruct (IH _ _ _ _ _ _ F h d x A C) as (A1 & C1 & N1). split; [done|]. split; [done|]. apply not_elem_of_cons. split; [|done].
      intros ->. by rewrite E in A1.
Qed.
Lemma flush_contains t s hs n s' : pool_flush t s hs n = Ok s' →
  ∀ h, pool_contains s' h = true → pool_contains s h = true ∧ h ∉ hs.
Proof.
  unfold pool_flush. destruct (flush_to_pending s) as [s1| |] eqn:F; [|done|done].
  apply flush_to_pending_same in F as (E1 & E2 & E3). unfold flush_inner.
  destruct (fold_left remove_one hs _) as [[m tips] r] eqn:R. destruct (tip_panics _ _); [done|]. cbn [p_hash_data p_buckets].
  destruct (fold_left sys_flush_one hs _) as [[hd b] r2] eqn:S. intros [= <-] h. unfold pool_contains, sys_contains. cbn [p_txmap p_hash_data p_buckets].
  match goal with |- context [filter ?P m !! h] => destruct (filter P m !! h) as [p|] eqn:M end.
  - intros _. apply map_filter_lookup_Some in M as [M _]. destruct (remove_fold _ _ _ _ _ _ _ R h) as [[q X] N1]; [by eexists|].
    rewrite E1 in X. by rewrite X.
  - destruct (hd !! h) as [d|] eqn:A; [|done]. destruct (b !! d) as [x|] eqn:C; [|done]. intros H.
    destruct (sys_fold _ _ _ _ _ _ _ S h d x A C) as (A1 & C1 & N1). rewrite E2 in A1. rewrite E3 in C1. rewrite A1, C1, H.
    by destruct (p_txmap s !! h).
Qed.

(* ---------------------------------------------------------------- *)
(** * The run of a node *)
Section Props.
  Variables (capacity timeout chain_id max_size : N) (sig_ok : stx → bool) (sort : list ptr → list ptr).
  Variable validator_at : xstate → bytes → bool.
  Variable exec : N → xstate → list stx → outcome xstate.
  Hypothesis HC : 0 < capacity.
  Hypothesis HS : ∀ l, sort l ≡ₚ l.
  Notation run := (ReplayModel.run capacity timeout chain_id max_size sig_ok sort validator_at exec).
  Notation step := (ReplayModel.step capacity timeout chain_id max_size sig_ok sort validator_at exec).

  (** Every hash stands for one transaction ([U]): no two transactions of the run collide. *)
  Definition named (U : N → stx) (e : event) : Prop :=
    match e with
    | EVet t => U (hash_of t) = t
    | ECheck _ (Some txs) => Forall (λ t, U (hash_of t) = t) txs
    | _ => True
    end.
  (** A peer asked for transactions sends those; no admission is half done when a block is committed. *)
  Definition orderly (v : vnode) (e : event) : Prop :=
    match e with
    | ECheck order (Some txs) => answers txs (unknown (v_pool v) order)
    | ECommit _ _ => v_vetted v = []
    | _ => True
    end.
  Fixpoint orderly_run (v : vnode) (l : list event) : Prop :=
    match l with
    | [] => True
    | e :: r => orderly v e ∧ match step v e with Ok v1 => orderly_run v1 r | Err => orderly_run v r | Panic => True end
    end.

  Definition kind (U : N → stx) (h : N) : bool :=
    match is_call_system_script (tx_action (unsigned_of (U h))) with Ok true => true | _ => false end.
  Definition name (U : N → stx) (h : N) : ptx := ptx_of (U h).

  Record RInv (U : N → stx) (v : vnode) : Prop := {
    ri_pool : ∃ ops, Forall (op_ok (name U) (kind U)) ops ∧ PoolModel.run capacity timeout sort pool_new ops = Ok (v_pool v);
    ri_vetted : ∀ t sys d, (t, (sys, d)) ∈ v_vetted v →
      U (hash_of t) = t ∧ is_call_system_script (tx_action (unsigned_of t)) = Ok sys ∧ v_stored v !! hash_of t = None;
    ri_seen : ∀ h t, v_seen v !! h = Some t → hash_of t = h;
    ri_held : ∀ h, pool_contains (v_pool v) h = true → is_Some (v_seen v !! h);
    ri_fresh : ∀ h, pool_contains (v_pool v) h = true → v_stored v !! h = None;
    ri_checked : ∀ order txs, (order, txs) ∈ v_checked v → map hash_of txs = order ∧ NoDup order ∧ ∀ h, h ∈ order → v_stored v !! h = None;
    ri_once : NoDup (map hash_of (executed v));
    ri_done : ∀ h, h ∈ map hash_of (executed v) → is_Some (v_stored v !! h);
    ri_blocks : ∀ order txs, (order, txs) ∈ v_blocks v → map hash_of txs = order }.

  Lemma inv_start U s : RInv U (start s).
  Proof.
    split; cbn.
    - exists []. split; [constructor|done].
    - intros t sys d H. by apply elem_of_nil in H.
    - intros h t. by rewrite lookup_empty.
    - intros h. unfold pool_contains, sys_contains, pool_new. cbn. rewrite !lookup_empty. done.
    - intros h _. by rewrite lookup_empty.
    - intros o l H. by apply elem_of_nil in H.
    - constructor.
    - intros h H. by apply elem_of_nil in H.
    - intros o l H. by apply elem_of_nil in H.
  Qed.

  Lemma pool_step U v o s : (∃ ops, Forall (op_ok (name U) (kind U)) ops ∧ PoolModel.run capacity timeout sort pool_new ops = Ok v) →
    op_ok (name U) (kind U) o → PoolModel.step capacity timeout sort v o = Ok s →
    ∃ ops, Forall (op_ok (name U) (kind U)) ops ∧ PoolModel.run capacity timeout sort pool_new ops = Ok s.
  Proof.
    intros (ops & F & R) O S. exists (ops ++ [o]). split; [apply Forall_app; split; [done|by constructor]|].
    rewrite PoolProofs5.run_app, R. cbn. by rewrite S.
  Qed.
  Lemma put_step U s t sys lim d s' : (∃ ops, Forall (op_ok (name U) (kind U)) ops ∧ PoolModel.run capacity timeout sort pool_new ops = Ok s) →
    U (hash_of t) = t → is_call_system_script (tx_action (unsigned_of t)) = Ok sys → put capacity s t sys lim d = Ok s' →
    ∃ ops, Forall (op_ok (name U) (kind U)) ops ∧ PoolModel.run capacity timeout sort pool_new ops = Ok s'.
  Proof.
    intros R E K P. unfold put in P. destruct sys.
    - injection P as <-. apply (pool_step U s (OInsertSys (ptx_of t)) _ R); [|done].
      cbn. unfold name, kind. rewrite E, K. done.
    - apply (pool_step U s (OInsert (ptx_of t) lim d) _ R); [|by cbn; rewrite P].
      cbn. unfold name, kind. rewrite E, K. done.
  Qed.
  Lemma pool_filed U s : (∃ ops, Forall (op_ok (name U) (kind U)) ops ∧ PoolModel.run capacity timeout sort pool_new ops = Ok s) → 
    ∃ ops, reachable capacity timeout sort ops s.
  Proof. intros (ops & F & R). exists ops. split; [done|]. split; [done|]. split; [|done]. by exists (name U), (kind U). Qed.

  Lemma see_some m t h : is_Some (m !! h) ∨ h = hash_of t → is_Some (see m t !! h).
  Proof using.
    unfold see. destruct (m !! hash_of t) as [x|] eqn:E; intros [Y| ->].
    - done.
    - by rewrite E.
    - destruct (decide (h = hash_of t)) as [->|N]; [rewrite lookup_insert; by eexists|by rewrite lookup_insert_ne].
    - rewrite lookup_insert. by eexists.
  Qed.
  Lemma see_hash m t : (∀ h x, m !! h = Some x → hash_of x = h) → ∀ h x, see m t !! h = Some x → hash_of x = h.
  Proof using.
    intros M h x. unfold see. destruct (m !! hash_of t) as [y|] eqn:E; [apply M|].
    destruct (decide (h = hash_of t)) as [->|N]; [rewrite lookup_insert; by intros [= <-]|rewrite lookup_insert_ne by done; apply M].
  Qed.

  (** What get_full_txs gives when the pool holds everything. *)
  Lemma full_known v order : (∃ ops, reachable capacity timeout sort ops (v_pool v)) →
    (∀ h t, v_seen v !! h = Some t → hash_of t = h) → (∀ h, pool_contains (v_pool v) h = true → is_Some (v_seen v !! h)) →
    (∀ h, h ∈ order → pool_contains (v_pool v) h = true) → ∀ txs, full v order = Ok txs → map hash_of txs = order.
  Proof using.
    intros (ops & R) SE HE K txs. unfold full. destruct (get_full_txs _ _ _) as [l| |] eqn:G; [|done|done]. intros [= <-].
    rewrite <- (app_nil_r order) in G. apply C18_in_order_partial in G; [|by apply Forall_forall|constructor]. rewrite app_nil_r in G.
    unfold in_order in G. apply reachable_filed in R.
    induction G as [|h p order l P G IH]; [done|].
    assert (C : pool_contains (v_pool v) h = true) by (apply K; left).
    pose proof C as C'. apply contains_get in C' as (tx & T). unfold known in P. rewrite T in P. injection P as <-.
    assert (t_hash tx = h) as EH by (by apply (filed_get _ _ _ R)).
    cbn [omap list_omap]. rewrite EH. destruct (HE h C) as (t & ST). rewrite ST. cbn [map]. rewrite (SE _ _ ST). f_equal.
    apply IH. intros h' H'. apply K. by right.
  Qed.

  Lemma inv_checked U v order txs : RInv U v → map hash_of txs = order → NoDup order → (∀ h, h ∈ order → pool_contains (v_pool v) h = true) →
    RInv U (add_checked v order txs).
  Proof using.
    intros I M N K. split; try apply I. cbn. intros o l. rewrite elem_of_cons. intros [[= -> ->]|H]; [|by apply (ri_checked U v I)].
    split; [done|]. split; [done|]. intros h Hh. by apply (ri_fresh U v I), K.
  Qed.

  Lemma check_all_fresh e c t d c1 : check_all sig_ok e c t = (Ok d, c1) → e_stored e (hash_of t) = None.
  Proof using.
    unfold check_all. destruct (check_authorization e c t) as [[x| |] y]; [|done|done]. destruct (check_transaction sig_ok e t); [|done|done].
    unfold check_storage_exist. by destruct (e_stored e (hash_of t)).
  Qed.
  Lemma verify_batch_fresh e l : ∀ c ds c1, verify_batch sig_ok e c l = (Ok ds, c1) → ∀ t, t ∈ l → e_stored e (hash_of t) = None.
  Proof using.
    induction l as [|t l IH]; intros c ds c1; cbn; [intros _ t H; by apply elem_of_nil in H|].
    destruct (check_all sig_ok e c t) as [o c2] eqn:C. destruct (verify_batch sig_ok e c2 l) as [os c3] eqn:B.
    destruct o as [d| |]; [|done|done]. destruct os as [ds'| |]; [|done|done]. intros [= <- <-] x. rewrite elem_of_cons.
    intros [->|H]; [by apply check_all_fresh in C|by eapply IH].
  Qed.
  Lemma insert_batch_hashes U l : Forall (λ x : stx * N, U (hash_of x.1) = x.1) l → ∀ s s', insert_batch capacity s l = Ok s' →
    (∃ ops, Forall (op_ok (name U) (kind U)) ops ∧ PoolModel.run capacity timeout sort pool_new ops = Ok s) →
    (∃ ops, Forall (op_ok (name U) (kind U)) ops ∧ PoolModel.run capacity timeout sort pool_new ops = Ok s') ∧
    ∀ h, pool_contains s' h = true → pool_contains s h = true ∨ ∃ x, x ∈ l ∧ h = hash_of x.1.
  Proof using.
    induction 1 as [|[t d] l E F IH]; intros s s'; cbn [insert_batch]; [intros [= <-] R; split; [done|by left]|].
    destruct (is_call_system_script _) as [sys| |] eqn:K; [|done|done]. destruct (put capacity s t sys false d) as [s1| |] eqn:P; [|done|done].
    intros B R. cbn in E. pose proof (put_step U s t sys false d s1 R E K P) as R1. destruct (IH _ _ B R1) as [R2 C]. split; [done|].
    intros h Hh. apply C in Hh as [Hh|(x & Hx & ->)]; [|right; exists x; split; [by right|done]].
    apply (put_contains _ _ _ _ _ _ _ P) in Hh as [Hh| ->]; [by left|]. right. exists (t, d). split; [by left|done].
  Qed.
  Lemma see_fold l : ∀ m, (∀ h x, m !! h = Some x → hash_of x = h) →
    (∀ h x, fold_left see l m !! h = Some x → hash_of x = h) ∧
    ∀ h, is_Some (m !! h) ∨ (∃ t, t ∈ l ∧ h = hash_of t) → is_Some (fold_left see l m !! h).
  Proof using.
    induction l as [|t l IH]; intros m M; cbn [fold_left].
    - split; [done|]. intros h [Y|(t & H & _)]; [done|by apply elem_of_nil in H].
    - destruct (IH (see m t) (see_hash m t M)) as [A B]. split; [done|]. intros h [Y|(x & H & ->)]; apply B.
      + left. apply see_some. by left.
      + apply elem_of_cons in H as [->|H]; [left; apply see_some; by right|right; by exists x].
  Qed.

  Lemma inv_vet U v t v' : RInv U v → U (hash_of t) = t → vet capacity chain_id max_size sig_ok validator_at v t = Ok v' → RInv U v'.
  Proof using.
    intros I E. unfold vet. destruct (is_call_system_script _) as [sys| |] eqn:K; [|done|done]. destruct (reach_limit _ _); [done|].
    destruct (pool_contains _ _); [by intros [= <-]|]. destruct (check_all _ _ _ _) as [[d| |] c1] eqn:C; [| |done]; intros [= <-].
    - split; try apply I. cbn. intros x sys' d'. rewrite elem_of_app, elem_of_list_singleton. intros [H|[= -> -> ->]]; [by apply (ri_vetted U v I) in H|].
      apply check_all_fresh in C. done.
    - split; apply I.
  Qed.
  Lemma inv_admit U v k v' : RInv U v → admit capacity v k = Ok v' → RInv U v'.
  Proof using.
    intros I. unfold admit. destruct (v_vetted v !! k) as [[t [sys d]]|] eqn:K; [|done].
    assert (IN : (t, (sys, d)) ∈ v_vetted v) by (by eapply elem_of_list_lookup_2). destruct (ri_vetted U v I _ _ _ IN) as (E & KI & ST).
    assert (SUB : ∀ x, x ∈ take k (v_vetted v) ++ drop (S k) (v_vetted v) → x ∈ v_vetted v).
    { intros x. rewrite <- (take_drop k (v_vetted v)) at 3. rewrite !elem_of_app. intros [H|H]; [by left|right].
      apply elem_of_list_lookup in H as [i H]. rewrite lookup_drop in H. apply elem_of_list_lookup. exists (S i). rewrite lookup_drop. rewrite <- Nat.add_succ_comm. exact H. }
    destruct (put _ _ _ _ _ _) as [s| |] eqn:P; [| |done]; intros [= <-].
    - split; try apply I; cbn.
      + by apply (put_step U _ _ _ _ _ _ (ri_pool U v I) E KI P).
      + intros x sys' d' H. apply SUB in H. by apply (ri_vetted U v I) in H.
      + apply see_hash, I.
      + intros h H. apply (put_contains _ _ _ _ _ _ _ P) in H. apply see_some. destruct H as [H| ->]; [left; by apply (ri_held U v I)|by right].
      + intros h H. apply (put_contains _ _ _ _ _ _ _ P) in H as [H| ->]; [by apply (ri_fresh U v I)|done].
    - split; try apply I; cbn. intros x sys' d' H. apply SUB in H. by apply (ri_vetted U v I) in H.
  Qed.
  Lemma inv_refresh U v s c : RInv U v → (∀ h, pool_contains s h = pool_contains (v_pool v) h) →
    (∃ ops, Forall (op_ok (name U) (kind U)) ops ∧ PoolModel.run capacity timeout sort pool_new ops = Ok s) → RInv U (set_pool v s c (v_seen v)).
  Proof using. intros I C R. split; try apply I; cbn; [done| |]; intros h; rewrite C; apply I. Qed.

  Lemma inv_check U v order answer v' : RInv U v → named U (ECheck order answer) → orderly v (ECheck order answer) →
    check capacity chain_id max_size sig_ok validator_at v order answer = Ok v' → RInv U v'.
  Proof using HC HS.
    intros I NM OR. unfold check. destruct (ensure_order_txs _ _ _ _ _ _ _) as [[s| |] c] eqn:EN; [| |done].
    2: { intros [= <-]. split; apply I. }
    destruct (pool_filed U _ (ri_pool U v I)) as (ops & RE).
    assert (ND : NoDup order).
    { destruct (decide (NoDup order)) as [|X]; [done|]. apply (C17_duplicates_refused sig_ok capacity (env_of chain_id max_size validator_at v) (v_cache v) (v_pool v) order answer) in X. congruence. }
    assert (AV : available s order).
    { eapply C17_ensure_partial; [exact RE|exact EN|]. intros txs ->. exact OR. }
    set (pulled := if bool_decide (unknown (v_pool v) order = []) then [] else default [] answer).
    assert (G : (∃ ops, Forall (op_ok (name U) (kind U)) ops ∧ PoolModel.run capacity timeout sort pool_new ops = Ok s) ∧
                (∀ h, pool_contains s h = true → pool_contains (v_pool v) h = true ∨ ∃ t, t ∈ pulled ∧ h = hash_of t) ∧
                (∀ t, t ∈ pulled → v_stored v !! hash_of t = None)).
    { unfold ensure_order_txs in EN. destruct (negb (check_dup _ _)); [done|]. unfold pulled. case_bool_decide as UN.
      - injection EN as <- <-. split; [apply I|]. split; [by left|]. intros t H. by apply elem_of_nil in H.
      - destruct answer as [txs|]; [|done]. cbn [default from_option id]. destruct (negb _) eqn:L; [done|].
        destruct (verify_batch _ _ _ _) as [[ds| |] c1] eqn:V; [|done|done]. injection EN as EN <-.
        pose proof (verify_batch_length _ _ _ _ _ _ V) as VL. pose proof (verify_batch_fresh _ _ _ _ _ V) as VF.
        destruct (insert_batch_hashes U (zip txs ds)) with (s := v_pool v) (s' := s) as [R C]; [|done|apply I|].
        { cbn in NM. clear -NM. revert ds. induction NM as [|t l E F IH]; intros [|d ds]; cbn; constructor; [done|apply IH]. }
        split; [done|]. split; [|exact VF]. intros h H. apply C in H as [H|(x & Hx & ->)]; [by left|]. right. exists (x.1). split; [|done].
        destruct x as [t d]. by apply elem_of_zip_l in Hx. }
    destruct G as (R & C & FR). set (v1 := set_pool v s c (fold_left see pulled (v_seen v))).
    destruct (see_fold pulled (v_seen v) (ri_seen U v I)) as [SH SS].
    assert (I1 : RInv U v1).
    { split; try apply I; cbn.
      - done.
      - exact SH.
      - intros h H. apply SS. apply C in H as [H|H]; [left; by apply (ri_held U v I)|by right].
      - intros h H. apply C in H as [H|(t & Ht & ->)]; [by apply (ri_fresh U v I)|by apply FR]. }
    assert (K : ∀ h, h ∈ order → pool_contains (v_pool v1) h = true).
    { intros h H. destruct (AV h H) as (tx & T & _). apply contains_get. by exists tx. }
    destruct (full v1 order) as [txs| |] eqn:FU; [| |done]; intros [= <-]; [|done].
    apply inv_checked; try done. exact (full_known v1 order (pool_filed U _ (ri_pool U v1 I1)) (ri_seen U v1 I1) (ri_held U v1 I1) K txs FU).
  Qed.

  Lemma package_contains s g l s' r : pool_package sort s g l = Ok (s', r) → ∀ h, pool_contains s' h = pool_contains s h.
  Proof using.
    unfold pool_package. destruct (sys_package_ok s); [|done].
    destruct (if bool_decide _ then _ else _) as [s1| |] eqn:E; [|done|done]. intros [= <- _].
    assert (X : p_txmap s1 = p_txmap s ∧ p_hash_data s1 = p_hash_data s ∧ p_buckets s1 = p_buckets s).
    { destruct (bool_decide _); [by injection E as <-|by apply flush_to_pending_same in E]. }
    destruct X as (A & B & C). intros h. unfold pool_contains, sys_contains. cbn. by rewrite A, B, C.
  Qed.
  Lemma inv_own U v g l v' : RInv U v → own sort v g l = Ok v' → RInv U v'.
  Proof using HC HS.
    intros I. unfold own. destruct (pool_package _ _ _ _) as [[s [order n]]| |] eqn:P; [|done|done].
    pose proof (package_contains _ _ _ _ _ P) as C. destruct (pool_filed U _ (ri_pool U v I)) as (ops & RE).
    destruct (C13_package_sound _ _ _ _ _ _ _ _ _ _ RE P) as (ND & K & _).
    set (v1 := set_pool v s (v_cache v) (v_seen v)). assert (I1 : RInv U v1).
    { apply inv_refresh; [done|done|]. apply (pool_step U _ (OPackage g l) _ (ri_pool U v I)); [done|]. cbn. by rewrite P. }
    destruct (full v1 order) as [txs| |] eqn:FU; [| |done]; intros [= <-]; [|done].
    apply inv_checked; try done. exact (full_known v1 order (pool_filed U _ (ri_pool U v1 I1)) (ri_seen U v1 I1) (ri_held U v1 I1) K txs FU).
  Qed.

  Lemma store_fold l : ∀ m h, (fold_left (λ (m : gmap N stx) t, <[hash_of t := t]> m) l m) !! h = None ↔ m !! h = None ∧ h ∉ map hash_of l.
  Proof using.
    induction l as [|t l IH]; intros m h; cbn [fold_left map]; [split; [intros; split; [done|apply not_elem_of_nil]|by intros [? _]]|].
    rewrite IH, not_elem_of_cons. destruct (decide (h = hash_of t)) as [->|N]; [rewrite lookup_insert; split; [by intros [? _]|by intros (_ & ? & _)]|].
    rewrite lookup_insert_ne by done. split; [intros [A B]; done|intros (A & _ & B); done].
  Qed.
  Lemma inv_commit U v k n v' : RInv U v → v_vetted v = [] → commit timeout exec v k n = Ok v' → RInv U v'.
  Proof using.
    intros I VE. unfold commit. destruct (v_checked v !! k) as [[order txs]|] eqn:K; [|done].
    apply elem_of_list_lookup_2 in K. destruct (ri_checked U v I _ _ K) as (M & ND & FR).
    destruct (exec n (v_state v) txs) as [st| |]; [|done|done]. unfold mempool_flush.
    destruct (pool_flush timeout (v_pool v) order n) as [s| |] eqn:F; [|done|done]. intros [= <-].
    assert (EX : executed (VNode s ∅ (v_vetted v) (v_seen v) (fold_left (λ m t, <[hash_of t := t]> m) txs (v_stored v)) st []
                   ((order, txs) :: v_blocks v)) = executed v ++ txs).
    { unfold executed. cbn [v_blocks rev]. rewrite map_app, concat_app. cbn. by rewrite app_nil_r. }
    pose proof (flush_contains _ _ _ _ _ F) as C. split; cbn [v_pool v_vetted v_seen v_stored v_checked v_blocks].
    - apply (pool_step U _ (OFlush order n) _ (ri_pool U v I)); [done|]. exact F.
    - rewrite VE. intros t sys d H. by apply elem_of_nil in H.
    - apply I.
    - intros h H. apply C in H as [H _]. by apply (ri_held U v I).
    - intros h H. apply C in H as [H N]. apply store_fold. rewrite M. split; [by apply (ri_fresh U v I)|done].
    - intros o l H. by apply elem_of_nil in H.
    - rewrite EX, map_app, M. apply NoDup_app. split; [apply I|]. split; [|done].
      intros h H1 H2. apply (ri_done U v I) in H1. rewrite (FR h H2) in H1. by destruct H1.
    - intros h. rewrite EX, map_app, elem_of_app. intros H. apply not_eq_None_Some. rewrite store_fold. intros [X Y].
      destruct H as [H|H]; [apply (ri_done U v I) in H; rewrite X in H; by destruct H|done].
    - intros o l. rewrite elem_of_cons. intros [[= -> ->]|H]; [done|by apply (ri_blocks U v I)].
  Qed.

  Lemma inv_step U v e v' : RInv U v → named U e → orderly v e → step v e = Ok v' → RInv U v'.
  Proof using HC HS.
    intros I N O. destruct e as [t|k|order answer|g l| |k n]; cbn [ReplayModel.step].
    - by apply inv_vet.
    - by apply inv_admit.
    - by apply inv_check.
    - by apply inv_own.
    - destruct (flush_to_pending (v_pool v)) as [s| |] eqn:F; [|done|done]. intros [= <-].
      apply inv_refresh; [done| |apply (pool_step U _ ORefresh _ (ri_pool U v I)); [done|exact F]].
      apply flush_to_pending_same in F as (A & B & C). by apply contains_maps.
    - by apply inv_commit.
  Qed.
  Lemma inv_run U l : Forall (named U) l → ∀ v v', RInv U v → orderly_run v l → run v l = Ok v' → RInv U v'.
  Proof using HC HS.
    induction 1 as [|e l N F IH]; intros v v' I; cbn [orderly_run ReplayModel.run]; [by intros _ [= <-]|].
    intros [O R]. destruct (step v e) as [v1| |] eqn:E; [|by apply IH|done]. apply IH; [|done]. exact (inv_step U v e v1 I N O E).
  Qed.

  (** Along every orderly run no hash is executed twice, neither in one block nor in two. *)
  Theorem C99_once_partial : ∀ U l s v, Forall (named U) l → orderly_run (start s) l → run (start s) l = Ok v →
    NoDup (map hash_of (executed v)).
  Proof using HC HS. intros U l s v N O R. exact (ri_once U v (inv_run U l N _ _ (inv_start U s) O R)). Qed.
  (** and every block executed the transactions its header names, in that order. *)
  Theorem C99_named_partial : ∀ U l s v, Forall (named U) l → orderly_run (start s) l → run (start s) l = Ok v →
    ∀ order txs, (order, txs) ∈ v_blocks v → map hash_of txs = order ∧ NoDup order.
  Proof using HC HS.
    intros U l s v N O R order txs H. pose proof (inv_run U l N _ _ (inv_start U s) O R) as I.
    pose proof (ri_blocks U v I _ _ H) as <-. split; [done|]. pose proof (ri_once U v I) as ND. unfold executed in ND.
    apply elem_of_list_split in H as (a & b & H). rewrite H, rev_app_distr, map_app, concat_app, map_app in ND. cbn [rev] in ND.
    apply NoDup_app in ND as (ND & _ & _). rewrite map_app, concat_app, map_app in ND. apply NoDup_app in ND as (_ & _ & ND). cbn in ND. by rewrite app_nil_r in ND.
  Qed.

  (** The two halves of an admission, one after the other, are MemPool::insert. *)
  Theorem C99_admission : ∀ v t s c, v_vetted v = [] → pool_contains (v_pool v) (hash_of t) = false →
    mempool_insert sig_ok capacity (env_of chain_id max_size validator_at v) (v_cache v) (v_pool v) t = (Ok s, c) →
    ∃ v', run v [EVet t; EAdmit 0] = Ok v' ∧ v_pool v' = s ∧ v_cache v' = c ∧ v_vetted v' = [].
  Proof using.
    intros v t s c VE NC M. unfold mempool_insert in M. cbn [ReplayModel.run ReplayModel.step]. unfold vet.
    destruct (is_call_system_script _) as [sys| |]; [|done|done]. destruct (reach_limit _ _); [done|]. rewrite NC in *.
    destruct (check_all _ _ _ _) as [[d| |] c1]; [|done|done]. injection M as M <-. unfold admit. cbn [set_vetted v_vetted]. rewrite VE. cbn [app lookup list_lookup].
    cbn [v_pool set_vetted]. rewrite M. eexists. split; [done|]. done.
  Qed.
End Props.

(* ---------------------------------------------------------------- *)
(** * The executor does not compare nonces *)
Definition with_nonce_u (n : N) (u : unsigned) : unsigned :=
  match u with
  | Legacy t => Legacy (LegacyTx n (l_gas_price t) (l_gas_limit t) (l_action t) (l_value t) (l_data t))
  | Eip2930 t => Eip2930 (Eip2930Tx n (e_gas_price t) (e_gas_limit t) (e_action t) (e_value t) (e_data t) (e_access t))
  | Eip1559 t => Eip1559 (Eip1559Tx n (f_max_prio t) (f_gas_price t) (f_gas_limit t) (f_action t) (f_value t) (f_data t) (f_access t))
  end.
(** The same sender and the same content under another nonce. *)
Definition with_nonce (n : N) (t : stx) : stx :=
  Stx (Utx (with_nonce_u n (unsigned_of t)) (u_sig (s_tx t)) (u_chain (s_tx t)) (u_hash (s_tx t))) (s_sender t) (s_public t).

(** Executing a transaction whose nonce is not the sender's gives what executing it with the right one gives.  (The interpreter is
    not told the nonce, executor/src/lib.rs:334-350.) *)
Theorem C99_any_nonce : ∀ keccak meta_abi hdr (hdr_hash henc : hdr → bytes) ckb_abi image_abi evm limit s t n,
  (∀ s limit t n, evm s limit (with_nonce n t) = evm s limit t) →
  exec_tx keccak meta_abi hdr_hash henc ckb_abi image_abi evm limit s (with_nonce n t) =
  exec_tx keccak meta_abi hdr_hash henc ckb_abi image_abi evm limit s t.
Proof.
  intros keccak meta_abi hdr hdr_hash henc ckb_abi image_abi evm limit s t n EV.
  assert (E : ∀ s0, evm_exec keccak evm limit s0 (with_nonce n t) = evm_exec keccak evm limit s0 t).
  { intros s0. unfold evm_exec. cbn zeta. rewrite EV. destruct t as [[u sg ch hs] se pu]. by destruct u. }
  assert (D : ∀ s0, dispatch keccak meta_abi hdr_hash henc ckb_abi image_abi s0 (with_nonce n t) = dispatch keccak meta_abi hdr_hash henc ckb_abi image_abi s0 t).
  { intros s0. destruct t as [[u sg ch hs] se pu]. by destruct u. }
  unfold exec_tx. cbn zeta. rewrite D, E. destruct t as [[u sg ch hs] se pu]. by destruct u.
Qed.

(* ---------------------------------------------------------------- *)
(** * Concrete nodes *)
Definition r_exec (n : N) (s : xstate) (txs : list stx) : outcome xstate :=
  match ex_exec_block (XState (xs_acc s) (xs_code s) (xs_logs s) (XCtx n (repeat 1 20) 0 []) (xs_meta s) (xs_cells s) (xs_hf s)) txs [] with
  | Ok (s', _, _) => Ok s'
  | Err => Err
  | Panic => Panic
  end.
(** Transfers to bob, all signed by the same sender; [net] is a transaction as it arrives from another node. *)
Definition raw_of (n price value : N) : bytes :=
  enc_utx (Utx (Legacy (LegacyTx n price 30000 (Call bob) value [])) (u_sig (s_tx (st_of v_1559))) (Some 5) []).
Definition net (raw : bytes) : stx := match dec_stx keccak256 rec0 (enc_str raw) with Ok t => t | _ => st_of [] end.
Definition payer : bytes := Eval vm_compute in s_sender (st_of v_1559).
Definition t_pay : stx := Eval vm_compute in net (raw_of 0 3 700).
Definition t_faster : stx := Eval vm_compute in net (raw_of 0 4 700).      (* the same payment, higher gas price *)
Definition t_padded : stx := Eval vm_compute in net (raw_of 0 3 700 ++ [184]).
Definition t_other : stx := Eval vm_compute in net (raw_of 7 3 1).
Definition h_pay : N := Eval vm_compute in hash_of t_pay.
Definition h_faster : N := Eval vm_compute in hash_of t_faster.
Definition h_padded : N := Eval vm_compute in hash_of t_padded.
Definition h_other : N := Eval vm_compute in hash_of t_other.
Definition U1 (h : N) : stx :=
  if h =? h_pay then t_pay else if h =? h_faster then t_faster else if h =? h_padded then t_padded else t_other.
Definition r_start : vnode := start (ex_state 119 [(payer, 10^18)]).
Notation r_run := (ReplayModel.run 100 20 5 1000 (λ _, true) isort (λ _ _, false) r_exec).
Notation r_orderly := (orderly_run 100 20 5 1000 (λ _, true) isort (λ _ _, false) r_exec).

(** Deciding [orderly_run]. *)
Definition orderlyb (v : vnode) (e : event) : bool :=
  match e with
  | ECheck order (Some txs) => forallb (λ h, existsb (λ t, hash_of t =? h) txs) (unknown (v_pool v) order)
  | ECommit _ _ => match v_vetted v with [] => true | _ => false end
  | _ => true
  end.
Fixpoint orderly_runb (v : vnode) (l : list event) : bool :=
  match l with
  | [] => true
  | e :: r => orderlyb v e && match ReplayModel.step 100 20 5 1000 (λ _, true) isort (λ _ _, false) r_exec v e with
                              | Ok v1 => orderly_runb v1 r | Err => orderly_runb v r | Panic => true end
  end.
Lemma orderly_runb_ok l : ∀ v, orderly_runb v l = true → r_orderly v l.
Proof.
  induction l as [|e l IH]; intros v; cbn [orderly_runb orderly_run]; [done|]. intros H. apply andb_true_iff in H as [O R]. split.
  - destruct e as [t|k|order [txs|]|g n| |k n]; try done; cbn in *.
    + intros h Hh. rewrite forallb_forall in O. apply elem_of_list_In in Hh. apply O in Hh. apply existsb_exists in Hh as (t & T & E).
      exists t. split; [by apply elem_of_list_In|by apply N.eqb_eq].
    + by destruct (v_vetted v).
  - destruct (ReplayModel.step _ _ _ _ _ _ _ _ v e); [by apply IH|by apply IH|done].
Qed.
(** What a run ends in: the executed hashes per block, what bob has, the payer's nonce. *)
Definition ends (l : list event) (blocks : list (list N)) (bob_has payer_nonce : N) : bool :=
  match r_run r_start l with
  | Ok v => bool_decide (map (map hash_of) (map snd (rev (v_blocks v))) = blocks) && (balance_of (v_state v) bob =? bob_has) && (nonce_of (v_state v) payer =? payer_nonce)
  | _ => false
  end.
Lemma ends_ok l blocks b n : ends l blocks b n = true → ∃ v, r_run r_start l = Ok v ∧ map hash_of (executed v) = concat blocks ∧
  length (v_blocks v) = length blocks ∧ balance_of (v_state v) bob = b ∧ nonce_of (v_state v) payer = n.
Proof.
  unfold ends. destruct (r_run r_start l) as [v| |]; [|done|done]. intros H. apply andb_true_iff in H as [H E2]. apply andb_true_iff in H as [H E1].
  apply bool_decide_eq_true in H. apply N.eqb_eq in E1, E2. exists v. split; [done|]. split; [|split; [|done]].
  - unfold executed. rewrite <- H. by rewrite concat_map.
  - rewrite <- H, !map_length, rev_length. done.
Qed.

(** A proposer replays a committed payment: asked for it, the proposer sends another valid transaction, and the database supplies
    the old one.  Bob is paid a second time in the next block. *)
Definition l_replay : list event :=
  [EVet t_pay; EAdmit 0; EOwn 0 10; ECommit 0 120; ECheck [h_pay] (Some [t_other]); ECommit 0 121].
Theorem C99_replay_refuted : ∃ v, Forall (named U1) l_replay ∧ r_run r_start l_replay = Ok v ∧
  map hash_of (executed v) = [h_pay; h_pay] ∧ length (v_blocks v) = 2%nat ∧
  balance_of (v_state v) bob = 2 * tx_value (unsigned_of t_pay) ∧ nonce_of (v_state v) payer = 2.
Proof.
  destruct (ends_ok l_replay [[h_pay]; [h_pay]] 1400 2) as (v & R & E & L & B & N); [vm_compute; reflexivity|].
  exists v. split; [repeat (constructor; [vm_compute; repeat constructor|]); constructor|].
  split; [exact R|]. split; [exact E|]. split; [exact L|]. split; [rewrite B; vm_compute; reflexivity|exact N].
Qed.

(** One signed payment in two encodings, a byte appended to the second: two hashes, both executed in one block, though every answer is what
    was asked for. *)
Definition l_padded : list event := [EVet t_pay; EAdmit 0; ECheck [h_pay; h_padded] (Some [t_padded]); ECommit 0 120].
Theorem C99_reencoded_refuted : ∃ v, Forall (named U1) l_padded ∧ r_orderly r_start l_padded ∧ r_run r_start l_padded = Ok v ∧
  map hash_of (executed v) = [h_pay; h_padded] ∧ s_sender t_pay = s_sender t_padded ∧
  u_unsigned (s_tx t_pay) = u_unsigned (s_tx t_padded) ∧ u_sig (s_tx t_pay) = u_sig (s_tx t_padded) ∧
  balance_of (v_state v) bob = 2 * tx_value (unsigned_of t_pay).
Proof.
  destruct (ends_ok l_padded [[h_pay; h_padded]] 1400 2) as (v & R & E & L & B & N); [vm_compute; reflexivity|].
  exists v. split; [repeat (constructor; [vm_compute; repeat constructor|]); constructor|].
  split; [apply orderly_runb_ok; vm_compute; reflexivity|].
  split; [exact R|]. split; [exact E|]. split; [vm_compute; reflexivity|]. split; [vm_compute; reflexivity|].
  split; [vm_compute; reflexivity|rewrite B; vm_compute; reflexivity].
Qed.

(** A payment and its replacement with a higher fee, both under nonce 0: a proposal of both is accepted by a node that has
    them, and bob is paid twice. *)
Definition l_faster : list event := [EVet t_pay; EAdmit 0; EVet t_faster; EAdmit 0; ECheck [h_pay; h_faster] None; ECommit 0 120].
Theorem C99_same_nonce_refuted : ∃ v, Forall (named U1) l_faster ∧ r_orderly r_start l_faster ∧ r_run r_start l_faster = Ok v ∧
  map hash_of (executed v) = [h_pay; h_faster] ∧ s_sender t_pay = s_sender t_faster ∧
  nonce (unsigned_of t_pay) = nonce (unsigned_of t_faster) ∧
  balance_of (v_state v) bob = tx_value (unsigned_of t_pay) + tx_value (unsigned_of t_faster).
Proof.
  destruct (ends_ok l_faster [[h_pay; h_faster]] 1400 2) as (v & R & E & L & B & N); [vm_compute; reflexivity|].
  exists v. split; [repeat (constructor; [vm_compute; repeat constructor|]); constructor|].
  split; [apply orderly_runb_ok; vm_compute; reflexivity|].
  split; [exact R|]. split; [exact E|]. split; [vm_compute; reflexivity|]. split; [vm_compute; reflexivity|].
  rewrite B. vm_compute. reflexivity.
Qed.

(** Without any wrong answer: an admission that has passed the checks is overtaken by two commits; the node then proposes the
    committed transaction again. *)
Definition l_race : list event :=
  [EVet t_pay; ECheck [h_pay] (Some [t_pay]); ECommit 0 120; EOwn 0 10; ECommit 0 121; EAdmit 0; EOwn 0 10; ECommit 0 122].
Theorem C99_race_refuted : ∃ v, Forall (named U1) l_race ∧ r_run r_start l_race = Ok v ∧
  map hash_of (executed v) = [h_pay; h_pay] ∧ length (v_blocks v) = 3%nat ∧ balance_of (v_state v) bob = 1400.
Proof.
  destruct (ends_ok l_race [[h_pay]; []; [h_pay]] 1400 2) as (v & R & E & L & B & N); [vm_compute; reflexivity|].
  exists v. split; [repeat (constructor; [vm_compute; repeat constructor|]); constructor|].
  split; [exact R|]. split; [exact E|]. split; [exact L|exact B].
Qed.

(** An orderly run with an own block, a pulled transaction, a refused replay and a refused repetition. *)
Definition l_good : list event :=
  [EVet t_pay; EAdmit 0; EOwn 0 10; ECommit 0 120; ECheck [h_pay] (Some [t_pay]); ECheck [h_other; h_other] (Some [t_other]);
   ECheck [h_other] (Some [t_other]); ERefresh; ECommit 0 121].
Example C99_nontrivial : Forall (named U1) l_good ∧ r_orderly r_start l_good ∧
  ∃ v, r_run r_start l_good = Ok v ∧ map hash_of (executed v) = [h_pay; h_other] ∧ balance_of (v_state v) bob = 701.
Proof.
  split; [repeat (constructor; [vm_compute; repeat constructor|]); constructor|].
  split; [apply orderly_runb_ok; vm_compute; reflexivity|].
  destruct (ends_ok l_good [[h_pay]; [h_other]] 701 2) as (v & R & E & L & B & N); [vm_compute; reflexivity|]. exists v.
  split; [exact R|]. split; [exact E|exact B].
Qed.
Example C99_any_nonce_nontrivial : ∀ s limit t n, ex_evm s limit (with_nonce n t) = ex_evm s limit t.
Proof. intros s limit [[u sg ch hs] se pu] n. by destruct u. Qed.

Print Assumptions C99_once_partial.
Print Assumptions C99_named_partial.
Print Assumptions C99_admission.
Print Assumptions C99_any_nonce.
Print Assumptions C99_replay_refuted.
Print Assumptions C99_reencoded_refuted.
Print Assumptions C99_same_nonce_refuted.
Print Assumptions C99_race_refuted.
