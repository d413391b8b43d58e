(** Properties of the pool service: C17, C18, C20, C55. *)
From Verif Require Import Bytes BytesProofs Rlp Keccak TxModel TxExamples PoolModel PoolProofs PoolProofs2 PoolProofs3 PoolProofs4 PoolProofs5 PoolProps
  MempoolModel.

(** Decoded example transactions. *)
Definition rec0 (m s : bytes) : option bytes := Some (repeat 1 64).
Definition st_of (raw : bytes) : stx :=
  match dec_utx keccak256 raw with
  | Ok t => match from_unverified keccak256 rec0 t with Ok st => st | _ => Stx (Utx (Legacy (LegacyTx 0 0 0 Create 0 [])) None None []) [] None end
  | _ => Stx (Utx (Legacy (LegacyTx 0 0 0 Create 0 [])) None None []) [] None
  end.
Definition env0 : env := Env 5 1000 (λ _, (0, 10^18)) (λ _, false) (λ _, None).

(* ---------------------------------------------------------------- *)
(** * C17: synchronising a proposal *)

(** Every ordered hash can be fetched from the pool. *)
Definition available (s : pool) (order : list N) : Prop := ∀ h, h ∈ order → ∃ tx, pool_get s h = Some tx ∧ t_hash tx = h.
(** The peer sent a transaction for every hash it was asked for. *)
Definition answers (txs : list stx) (asked : list N) : Prop := ∀ h, h ∈ asked → ∃ t, t ∈ txs ∧ hash_of t = h.
(** The pool files its transactions under their own hash. *)
Definition filed (s : pool) : Prop :=
  (∀ h p, p_txmap s !! h = Some p → phash p = h) ∧
  (∀ d b h tx, p_buckets s !! d = Some b → b !! h = Some tx → t_hash tx = h).

Lemma reachable_filed c t srt ops s : reachable c t srt ops s → filed s.
Proof.
  intros R. destruct (reachable_inv _ _ _ _ _ R) as (U & SY & _ & I). split.
  - intros h p H. by apply (d_txmap _ _ _ _ _ _ (i_d _ _ _ _ I)) in H as [? _].
  - intros d b h tx Hd Hb. destruct (i_bk _ _ _ _ I d b Hd) as [_ H]. by apply H in Hb as [? _].
Qed.

Lemma contains_get s h : pool_contains s h = true ↔ is_Some (pool_get s h).
Proof.
  unfold pool_contains, pool_get, sys_contains, sys_get. destruct (p_txmap s !! h); [split; eauto|].
  destruct (p_hash_data s !! h) as [d|]; [|split; [done|by intros [? [=]]]].
  destruct (p_buckets s !! d) as [b|]; [|split; [done|by intros [? [=]]]].
  destruct (b !! h); split; eauto; [done|by intros [? [=]]].
Qed.

Lemma filed_get s h tx : filed s → pool_get s h = Some tx → t_hash tx = h.
Proof.
  intros [F1 F2]. unfold pool_get, sys_get. destruct (p_txmap s !! h) as [p|] eqn:E.
  - intros [= <-]. by apply F1 in E.
  - destruct (p_hash_data s !! h) as [d|]; [|done]. destruct (p_buckets s !! d) as [b|] eqn:Eb; [|done]. intros H. by eapply F2.
Qed.

Lemma flush_to_pending_same s s' : flush_to_pending s = Ok s' →
  p_txmap s' = p_txmap s ∧ p_hash_data s' = p_hash_data s ∧ p_buckets s' = p_buckets s.
Proof. unfold flush_to_pending. destruct (fold_left _ _ _) as [[[f pe] r]| |]; [|done|done]. intros [= <-]. done. Qed.

Lemma pool_insert_same c s tx lim d s' : pool_insert c s tx lim d = Ok s' →
  p_hash_data s' = p_hash_data s ∧ p_buckets s' = p_buckets s ∧
  ((p_txmap s' = p_txmap s ∧ is_Some (p_txmap s !! t_hash tx)) ∨
   p_txmap s !! t_hash tx = None ∧ ∃ i, p_txmap s' = <[t_hash tx := Ptr i tx]> (p_txmap s)).
Proof.
  unfold pool_insert. destruct (_ && lim); [done|].
  match goal with |- match ?o with _ => _ end = _ → _ => assert (∀ s2, o = Ok s2 → p_txmap s2 = p_txmap s ∧ p_hash_data s2 = p_hash_data s ∧ p_buckets s2 = p_buckets s) as G end.
  { intros s2. destruct (_ && _); [|by intros [= <-]]. intros H. by apply flush_to_pending_same in H. }
  destruct (if _ && _ then _ else _) as [s2| |]; [|done|done]. destruct (G s2 eq_refl) as (E1 & E2 & E3).
  rewrite E1. destruct (p_txmap s !! t_hash tx) eqn:E; intros [= <-]; cbn; (split; [done|]); (split; [done|]).
  - left. split; [done|]. eauto.
  - right. split; [done|]. eauto.
Qed.

(** Inserting keeps what is there and adds the new transaction. *)
Lemma put_get c s t sys lim d s' : filed s → put c s t sys lim d = Ok s' →
  filed s' ∧ (∀ h, is_Some (pool_get s h) → is_Some (pool_get s' h)) ∧ is_Some (pool_get s' (hash_of t)).
Proof.
  intros F. unfold put. destruct sys.
  - intros [= <-]. unfold pool_insert_sys. cbn [ptx_of t_hash t_data]. set (d0 := tx_data _). set (h0 := hash_of t).
    split; [|split].
    + split; [apply F|]. cbn. intros d' b h tx. destruct (decide (d' = d0)) as [->|N].
      * rewrite lookup_insert. intros [= <-]. destruct (decide (h = h0)) as [->|N].
        -- rewrite lookup_insert. by intros [= <-].
        -- rewrite lookup_insert_ne by done. match goal with |- context [default ∅ ?o] => destruct o as [b|] eqn:E end; [cbn|by vm_compute].
           intros H. by eapply (proj2 F).
      * rewrite lookup_insert_ne by done. apply F.
    + intros h. unfold pool_get, sys_get; cbn. destruct (p_txmap s !! h); [done|].
      destruct (decide (h = h0)) as [->|N].
      * intros _. rewrite lookup_insert. rewrite lookup_insert. rewrite lookup_insert. eauto.
      * rewrite lookup_insert_ne by done. destruct (p_hash_data s !! h) as [d'|]; [|by intros [? [=]]].
        destruct (decide (d' = d0)) as [->|N2].
        -- rewrite lookup_insert, lookup_insert_ne by done. match goal with |- context [default ∅ ?o] => destruct o as [b|] eqn:E end; [done|]. by intros [? [=]].
        -- by rewrite lookup_insert_ne by done.
    + unfold pool_get, sys_get; cbn. destruct (p_txmap s !! h0); [eauto|]. rewrite lookup_insert. rewrite lookup_insert.
      rewrite lookup_insert. eauto.
  - intros H. apply pool_insert_same in H as (E1 & E2 & E3). cbn [ptx_of t_hash] in E3.
    unfold filed, pool_get, sys_get. rewrite E1, E2. destruct E3 as [[E3 H]|[H [i E3]]]; rewrite E3.
    + split; [done|]. split; [done|]. by destruct H as [? ->].
    + split; [split|split].
      * intros h p. destruct (decide (h = hash_of t)) as [->|N]; [rewrite lookup_insert; by intros [= <-]|].
        rewrite lookup_insert_ne by done. apply F.
      * apply F.
      * intros h. destruct (decide (h = hash_of t)) as [->|N]; [rewrite lookup_insert; eauto|].
        by rewrite lookup_insert_ne by done.
      * rewrite lookup_insert. eauto.
Qed.

Lemma insert_batch_get c l : ∀ s s', filed s → insert_batch c s l = Ok s' →
  filed s' ∧ (∀ h, is_Some (pool_get s h) → is_Some (pool_get s' h)) ∧
  (∀ t d, (t, d) ∈ l → is_Some (pool_get s' (hash_of t))).
Proof.
  induction l as [|[t d] l IH]; intros s s' F; cbn.
  - intros [= <-]. split; [done|]. split; [done|]. intros t d H. by apply elem_of_nil in H.
  - destruct (is_call_system_script _) as [sys| |]; [|done|done]. destruct (put c s t sys false d) as [s1| |] eqn:E; [|done|done].
    intros H. apply put_get in E as (F1 & K1 & G1); [|done]. apply IH in H as (F2 & K2 & G2); [|done].
    split; [done|]. split; [auto|]. intros t' d'. rewrite elem_of_cons. intros [[= -> ->]|Hin]; [auto|]. eauto.
Qed.

Lemma verify_batch_length so e l : ∀ c ds c', verify_batch so e c l = (Ok ds, c') → length ds = length l.
Proof.
  induction l as [|t l IH]; intros c ds c'; cbn; [by intros [= <- _]|].
  destruct (check_all so e c t) as [o c1]. destruct (verify_batch so e c1 l) as [os c2] eqn:E.
  destruct o as [d| |]; [|done|done]. destruct os as [ds'| |]; [|done|done]. intros [= <- _]. cbn. f_equal. by eapply IH.
Qed.

(** C17 as stated is false: the peer may answer with a valid transaction nobody asked for. *)
Theorem C17_ensure_refuted : ∃ order answer s' c', reachable 100 20 isort [] pool_new ∧
  ensure_order_txs (λ _, true) 100 env0 ∅ pool_new order (Some answer) = (Ok s', c') ∧ ¬ available s' order.
Proof.
  exists [7], [st_of v_1559]. eexists _, _. split; [apply go_reachable; vm_compute; reflexivity|].
  split; [vm_compute; reflexivity|].
  intros H. destruct (H 7) as (tx & G & _); [by apply elem_of_list_singleton|]. vm_compute in G. discriminate.
Qed.
Print Assumptions C17_ensure_refuted.

(** What holds: when the answer covers the hashes asked for, everything ordered is available afterwards. *)
Theorem C17_ensure_partial so c t srt ops s e ca order answer s' ca' :
  reachable c t srt ops s →
  ensure_order_txs so c e ca s order answer = (Ok s', ca') →
  (∀ txs, answer = Some txs → answers txs (unknown s order)) →
  available s' order.
Proof.
  intros R H HA. pose proof (reachable_filed _ _ _ _ _ R) as F.
  assert (∀ h, h ∈ order → h ∈ unknown s order ∨ is_Some (pool_get s h)) as K.
  { intros h Hh. destruct (pool_contains s h) eqn:E; [right; by apply contains_get|]. left. by apply elem_of_list_filter. }
  unfold ensure_order_txs in H. destruct (negb _); [done|]. destruct (bool_decide _) eqn:EU.
  - apply bool_decide_eq_true in EU. injection H as <- <-. intros h Hh. apply K in Hh as [Hh|[tx Hh]].
    + rewrite EU in Hh. by apply elem_of_nil in Hh.
    + exists tx. split; [done|]. by eapply filed_get.
  - destruct answer as [txs|]; [|done]. destruct (negb _) eqn:EL; [done|].
    destruct (verify_batch so e ca txs) as [[ds| |] c1] eqn:EV; [|done|done]. injection H as H _.
    apply verify_batch_length in EV. apply insert_batch_get in H as (F' & K' & G'); [|done].
    assert (∀ h, h ∈ order → is_Some (pool_get s' h)) as A.
    { intros h Hh. apply K in Hh as [Hh|Hh]; [|auto]. destruct (HA txs eq_refl h Hh) as (t0 & Ht & <-).
      apply elem_of_list_lookup in Ht as [i Hi]. destruct (lookup_lt_is_Some_2 ds i) as [d Hd].
      { rewrite EV. by eapply lookup_lt_Some. }
      apply (G' t0 d). apply elem_of_list_lookup. exists i. rewrite lookup_zip_with, Hi. cbn. by rewrite Hd. }
    intros h Hh. destruct (A h Hh) as [tx Htx]. exists tx. split; [done|]. exact (filed_get _ _ _ F' Htx).
Qed.
Print Assumptions C17_ensure_partial.

(** Whatever the peer answers, nothing that was in the pool gets lost, and repeated hashes are refused. *)
Theorem C17_known_kept_partial so c t srt ops s e ca order answer s' ca' h :
  reachable c t srt ops s → ensure_order_txs so c e ca s order answer = (Ok s', ca') →
  pool_contains s h = true → pool_contains s' h = true.
Proof.
  intros R H. pose proof (reachable_filed _ _ _ _ _ R) as F. rewrite !contains_get.
  unfold ensure_order_txs in H. destruct (negb _); [done|]. destruct (bool_decide _); [by injection H as <- _|].
  destruct answer as [txs|]; [|done]. destruct (negb _) eqn:EL; [done|].
  destruct (verify_batch so e ca txs) as [[ds| |] c1] eqn:EV; [|done|done]. injection H as H _.
  apply insert_batch_get in H as (F' & K' & G'); [|done]. apply K'.
Qed.
Print Assumptions C17_known_kept_partial.

Lemma check_dup_ok seen l : check_dup seen l = true ↔ NoDup l ∧ ∀ h, h ∈ l → h ∉ seen.
Proof.
  revert seen. induction l as [|x l IH]; intros seen; cbn.
  - split; [|done]. intros _. split; [constructor|]. intros h H. by apply elem_of_nil in H.
  - case_bool_decide as E.
    + split; [done|]. intros [_ H]. exfalso. by apply (H x); [left|].
    + rewrite IH, NoDup_cons. split.
      * intros [ND H]. split; [split; [|done]|]; [intros Hx; apply (H x Hx); set_solver|].
        intros h. rewrite elem_of_cons. intros [->|Hh]; [done|]. specialize (H h Hh). set_solver.
      * intros [[Hx ND] H]. split; [done|]. intros h Hh. specialize (H h). rewrite elem_of_cons in H. set_solver.
Qed.
Theorem C17_duplicates_refused so c e ca s order answer :
  ¬ NoDup order → ensure_order_txs so c e ca s order answer = (Err, ca).
Proof.
  intros H. unfold ensure_order_txs. destruct (check_dup ∅ order) eqn:E; [|done]. apply check_dup_ok in E as [? _]. done.
Qed.
Print Assumptions C17_duplicates_refused.

(** Both branches of the theorem are met: an honest peer, and a pool that already has the transaction. *)
Definition h_1559 : N := Eval vm_compute in hash_of (st_of v_1559).
Example C17_example :
  match ensure_order_txs (λ _, true) 100 env0 ∅ pool_new [h_1559] (Some [st_of v_1559]) with
  | (Ok s', _) => pool_contains s' h_1559 = true
      ∧ (ensure_order_txs (λ _, true) 100 env0 ∅ s' [h_1559] None).1 = Ok s'
  | _ => False
  end.
Proof. vm_compute. split; reflexivity. Qed.
Example C17_answers_example : answers [st_of v_1559] (unknown pool_new [h_1559]).
Proof. intros h Hh. exists (st_of v_1559). split; [left|]. vm_compute in Hh. vm_compute. 
  apply elem_of_list_singleton in Hh. by rewrite Hh. Qed.

(* ---------------------------------------------------------------- *)
(** * C18: fetching full transactions *)

(** The transaction a node knows for a hash. *)
Definition known (stored : N → option stx) (s : pool) (h : N) : option ptx :=
  match pool_get s h with Some tx => Some tx | None => option_map ptx_of (stored h) end.
(** [out] lists the transactions of [hashes], position by position. *)
Definition in_order (stored : N → option stx) (s : pool) (hashes : list N) (out : list ptx) : Prop :=
  Forall2 (λ h tx, known stored s h = Some tx) hashes out.

Definition full_of (stored : N → option stx) (s : pool) (hashes : list N) : list ptx :=
  omap (pool_get s) hashes ++ omap id (storage_lookup stored (filter (λ h, in_pool s h = false) hashes)).
Lemma get_full_full stored s hashes :
  get_full_txs stored s hashes = if (length (full_of stored s hashes) =? length hashes)%nat then Ok (full_of stored s hashes) else Err.
Proof.
  unfold get_full_txs, full_of. case_bool_decide as E.
  - rewrite E. cbn [storage_lookup map omap list_omap]. rewrite app_nil_r. by destruct (_ =? _)%nat.
  - by destruct (_ =? _)%nat.
Qed.
Lemma filter_missing s h l : filter (λ h, in_pool s h = false) (h :: l) =
  match pool_get s h with Some _ => filter (λ h, in_pool s h = false) l | None => h :: filter (λ h, in_pool s h = false) l end.
Proof.
  rewrite filter_cons. destruct (decide (in_pool s h = false)) as [H|H]; revert H; unfold in_pool; by destruct (pool_get s h).
Qed.
Lemma full_of_perm stored s hashes : full_of stored s hashes ≡ₚ omap (known stored s) hashes.
Proof.
  unfold full_of. induction hashes as [|h l IH]; [done|]. rewrite filter_missing.
  cbn [omap list_omap]. unfold known at 1. destruct (pool_get s h) as [tx|] eqn:E.
  - cbn. by rewrite <- IH.
  - cbn. destruct (stored h) as [t|]; cbn; [|by rewrite <- IH].
    rewrite <- IH. by rewrite Permutation_middle.
Qed.
Lemma omap_length_le {A B} (f : A → option B) l : (length (omap f l) ≤ length l)%nat.
Proof. induction l as [|x l IH]; cbn; [lia|]. destruct (f x); cbn; lia. Qed.
Lemma omap_full {A B} (f : A → option B) l : length (omap f l) = length l → Forall2 (λ x y, f x = Some y) l (omap f l).
Proof.
  induction l as [|x l IH]; cbn; [constructor|]. pose proof (omap_length_le f l). destruct (f x) eqn:E; cbn; [|intros; lia].
  intros [= Hl]. constructor; auto.
Qed.

(** C18 as stated is false: transactions of the pool come first, whatever the order asked for. *)
Definition stored_1559 (h : N) : option stx := if h =? h_1559 then Some (st_of v_1559) else None.
Theorem C18_order_refuted : ∃ stored ops s hashes out, reachable 100 20 isort ops s ∧
  get_full_txs stored s hashes = Ok out ∧ NoDup hashes ∧ (∀ h t, stored h = Some t → hash_of t = h) ∧ ¬ in_order stored s hashes out.
Proof.
  exists stored_1559, [OInsert (T 1 1 0 5) true 0]. eexists. exists [h_1559; 1]. eexists.
  split; [apply go_reachable; vm_compute; reflexivity|]. split; [vm_compute; reflexivity|].
  split; [apply (bool_decide_unpack _); vm_compute; exact I|]. split.
  { intros h t. unfold stored_1559. destruct (N.eqb_spec h h_1559) as [->|]; [|done]. intros [= <-]. vm_compute. reflexivity. }
  intros H. inversion H as [|h0 tx0 l0 l1 H1 H2 E1 E2]; subst. vm_compute in H1. discriminate.
Qed.
Print Assumptions C18_order_refuted.

(** What holds for every list: exactly the asked transactions, possibly in another order; an error exactly when one is unknown. *)
Theorem C18_permutation_partial stored s hashes out :
  get_full_txs stored s hashes = Ok out → ∃ out', in_order stored s hashes out' ∧ out ≡ₚ out'.
Proof.
  rewrite get_full_full. destruct (Nat.eqb_spec (length (full_of stored s hashes)) (length hashes)) as [E|]; [|done].
  intros [= <-]. exists (omap (known stored s) hashes). split; [|apply full_of_perm]. apply omap_full.
  by rewrite <- full_of_perm.
Qed.
Print Assumptions C18_permutation_partial.

Theorem C18_error_iff stored s hashes :
  get_full_txs stored s hashes = Err ↔ ∃ h, h ∈ hashes ∧ known stored s h = None.
Proof.
  rewrite get_full_full. rewrite full_of_perm.
  destruct (Nat.eqb_spec (length (omap (known stored s) hashes)) (length hashes)) as [E|E].
  - split; [done|]. intros (h & Hh & Hn). apply omap_full in E. apply elem_of_list_lookup in Hh as [i Hi].
    apply (Forall2_lookup_l _ _ _ i h E) in Hi as (y & _ & Hy). congruence.
  - split; [|done]. intros _. destruct (decide (Forall (λ h, is_Some (known stored s h)) hashes)) as [HF|HF].
    + exfalso. apply E. clear E. induction HF as [|h l [tx Ht] HF IH]; cbn; [done|]. rewrite Ht. cbn. by f_equal.
    + apply not_Forall_Exists in HF; [|apply _]. apply Exists_exists in HF as (h & Hh & Hn).
      exists h. split; [done|]. by apply eq_None_not_Some.
Qed.
Print Assumptions C18_error_iff.

(** The order is right when no pooled hash is listed behind one that is only in the database: in particular when all are
    pooled or all are in the database. *)
Theorem C18_in_order_partial stored s pre post out :
  Forall (λ h, pool_contains s h = true) pre → Forall (λ h, pool_contains s h = false) post →
  get_full_txs stored s (pre ++ post) = Ok out → in_order stored s (pre ++ post) out.
Proof.
  intros H1 H2. rewrite get_full_full. destruct (Nat.eqb_spec (length (full_of stored s (pre ++ post))) (length (pre ++ post))) as [E|]; [|done].
  intros [= <-]. unfold in_order.
  assert (full_of stored s (pre ++ post) = omap (known stored s) (pre ++ post)) as EQ.
  { clear E. unfold full_of. rewrite filter_app, !omap_app. unfold storage_lookup. rewrite map_app, omap_app.
    assert (omap (pool_get s) pre = omap (known stored s) pre ∧ filter (λ h, in_pool s h = false) pre = []) as [E1 E2].
    { induction H1 as [|h l Hh H1 [IH1 IH2]]; [done|]. apply contains_get in Hh as [tx Htx]. rewrite filter_missing.
      cbn [omap list_omap]. unfold known at 1. rewrite Htx. by rewrite IH1, IH2. }
    assert (omap (pool_get s) post = [] ∧ omap id (map (λ h, option_map ptx_of (stored h)) (filter (λ h, in_pool s h = false) post)) = omap (known stored s) post) as [E3 E4].
    { induction H2 as [|h l Hh H2 [IH1 IH2]]; [done|].
      assert (pool_get s h = None) as Htx. { apply eq_None_not_Some. intros Hs. apply contains_get in Hs. congruence. }
      rewrite filter_missing. cbn [omap list_omap]. unfold known at 1. rewrite Htx. cbn.
      rewrite IH1, IH2. done. }
    rewrite E1, E2, E3, E4, app_nil_r. done. }
  rewrite EQ in *. by apply omap_full.
Qed.
Print Assumptions C18_in_order_partial.

Example C18_example :
  match go [OInsert (T 1 1 0 5) true 0; OInsert (T 2 2 0 5) true 0] with
  | Ok s => get_full_txs stored_1559 s [2; 1; h_1559] = Ok [T 2 2 0 5; T 1 1 0 5; ptx_of (st_of v_1559)]
      ∧ get_full_txs stored_1559 s [1; 77] = Err
  | _ => False
  end.
Proof. vm_compute. split; reflexivity. Qed.

(* ---------------------------------------------------------------- *)
(** * C20: static admission rules *)

(** The rules, in terms of the transaction alone. *)
Definition within_rules (chain max_size : N) (t : stx) : Prop :=
  (u_chain (s_tx t) = None ∨ u_chain (s_tx t) = Some chain) ∧
  N.of_nat (length (enc_utx (s_tx t))) <= max_size ∧
  0 < gas_price (unsigned_of t) < 500000000000 ∧
  21000 <= gas_limit (unsigned_of t) <= 30000000.
(** It carries a signature and a public key and they verify. *)
Definition signed_well (sig_ok : stx → bool) (t : stx) : Prop :=
  is_Some (u_sig (s_tx t)) ∧ is_Some (s_public t) ∧ sig_ok t = true.

Theorem C20_static_checks so e t :
  check_transaction so e t = Ok tt ↔ within_rules (e_chain e) (e_max_size e) t ∧ signed_well so t.
Proof.
  unfold check_transaction, within_rules, signed_well.
  destruct (u_sig (s_tx t)) as [sg|]; [|split; [done|intros (_ & [? [=]] & _)]].
  destruct (s_public t) as [pk|]; [|split; [done|intros (_ & _ & [? [=]] & _)]].
  unfold verify_chain_id, verify_tx_size, verify_gas_price, verify_gas_limit, len.
  change MAX_GAS_PRICE with 500000000000. change MAX_GAS_LIMIT with 30000000. change MIN_TRANSACTION_GAS_LIMIT with 21000.
  assert ((match u_chain (s_tx t) with Some c => c =? e_chain e | None => true end) = true ↔ (u_chain (s_tx t) = None ∨ u_chain (s_tx t) = Some (e_chain e))) as HC.
  { destruct (u_chain (s_tx t)) as [c|]; [|by intuition]. rewrite N.eqb_eq. split; [intros ->; by right|intros [?|[= ->]]; done]. }
  destruct (match u_chain (s_tx t) with Some c => c =? e_chain e | None => true end); cbn [negb].
  2:{ split; [done|]. intros [[H _] _]. apply HC in H. done. }
  destruct (N.ltb_spec (e_max_size e) (N.of_nat (length (enc_utx (s_tx t))))) as [HS|HS]; cbn [negb]; [split; [done|]; intros [(_ & H & _) _]; lia|].
  destruct (N.eqb_spec (gas_price (unsigned_of t)) 0) as [HP|HP]; cbn [negb orb]; [split; [done|]; intros [(_ & _ & H & _) _]; lia|].
  destruct (N.leb_spec 500000000000 (gas_price (unsigned_of t))) as [HP2|HP2]; cbn [negb orb]; [split; [done|]; intros [(_ & _ & H & _) _]; lia|].
  destruct (N.ltb_spec (gas_limit (unsigned_of t)) 21000) as [HG|HG]; cbn [negb andb]; [split; [done|]; intros [(_ & _ & _ & H) _]; lia|].
  destruct (N.ltb_spec 30000000 (gas_limit (unsigned_of t))) as [HG2|HG2]; cbn [negb andb]; [split; [done|]; intros [(_ & _ & _ & H) _]; lia|].
  destruct (so t) eqn:ES; cbn [negb]; [|split; [done|]; intros (_ & _ & _ & H); done].
  split; [|done]. intros _. split; [|by eauto]. split; [by apply HC|]. split; [done|]. lia.
Qed.
Print Assumptions C20_static_checks.

(** The rule about the hash is false of these checks: a transaction decoded from the network whose hash is not the hash of its
    content passes them. *)
Theorem C20_hash_refuted : ∃ raw st, dec_stx keccak256 rec0 raw = Ok st ∧
  check_transaction (λ _, true) env0 st = Ok tt ∧ u_hash (s_tx st) ≠ keccak256 (enc_utx (s_tx st)).
Proof.
  exists (enc_str (v_1559 ++ [184])). eexists. split; [vm_compute; reflexivity|]. split; [vm_compute; reflexivity|]. vm_compute. discriminate.
Qed.
Print Assumptions C20_hash_refuted.

Ltac peel E := first [discriminate E | injection E as <- | match type of E with obind ?o _ = _ => destruct o; cbn [obind] in E end |
  match type of E with match ?o with _ => _ end = _ => destruct o | (if ?o then _ else _) = _ => destruct o end].
(** Through eth_sendRawTransaction the hash does match: the returned hash is the digest of the submitted bytes and of the
    content, and the pool holds the transaction under it. *)
Theorem C20_rpc_hash_partial keccak recover so c cap e ca s raw h s' ca' : filed s →
  send_raw_transaction keccak recover so c cap e ca s raw = (Ok (h, s'), ca') →
  h = keccak raw ∧ (∃ t, dec_utx keccak raw = Ok t ∧ h = keccak (enc_utx t)) ∧ pool_contains s' (be_val h) = true.
Proof.
  intros F. unfold send_raw_transaction. destruct (dec_utx keccak raw) as [t| |] eqn:ED; [|done|done].
  destruct (negb (rpc_precheck cap t)); [done|]. destruct (check_hash keccak t) eqn:EH; [|done]. cbn [negb].
  destruct (from_unverified keccak recover t) as [st| |] eqn:EF; [|done|done].
  assert (s_tx st = calc_hash keccak t) as ES.
  { unfold from_unverified in EF. destruct (u_sig t); [|done]. destruct (sender_of keccak recover t s0) as [[a p]| |]; [|done|done].
    by injection EF as <-. }
  assert (u_hash t = keccak raw) as EK.
  { clear -ED. unfold dec_utx in ED. destruct raw as [|x r]; [done|]. destruct (128 <=? x).
    - destruct (dec_legacy keccak (x :: r)) eqn:E; [|done]. injection ED as <-. unfold dec_legacy in E.
      by repeat peel E.
    - destruct (N.eqb_spec x 1) as [->|].
      + destruct (dec_eip2930 keccak r) eqn:E; [|done]. injection ED as <-. unfold dec_eip2930 in E.
        by repeat peel E.
      + destruct (N.eqb_spec x 2) as [->|]; [|done].
        destruct (dec_eip1559 keccak r) eqn:E; [|done]. injection ED as <-. unfold dec_eip1559 in E.
        by repeat peel E. }
  unfold check_hash in EH. apply beqb_eq in EH. unfold get_hash in EH.
  destruct (mempool_insert so c e ca s st) as [[s1| |] c1] eqn:EM; [|done|done]. intros [= <- <- <-]. rewrite ES. cbn [calc_hash u_hash].
  unfold get_hash. split; [congruence|]. split; [eauto|].
  assert (hash_of st = be_val (keccak (enc_utx t))) as EHS. { unfold hash_of. by rewrite ES. }
  rewrite <- EHS. clear EHS ES. unfold mempool_insert in EM. destruct (is_call_system_script _) as [sys| |]; [|done|done].
  destruct (reach_limit c s); [done|]. destruct (pool_contains s (hash_of st)) eqn:EC; [by injection EM as <- _|].
  destruct (check_all so e ca st) as [[d| |] c2]; [|done|done]. injection EM as EM _.
  apply put_get in EM as (_ & _ & G); [|done]. by apply contains_get.
Qed.
Print Assumptions C20_rpc_hash_partial.

Example C20_example : check_transaction (λ _, true) env0 (st_of v_1559) = Ok tt ∧
  (∃ s' c', send_raw_transaction keccak256 rec0 (λ _, true) 100 30000000 env0 ∅ pool_new v_1559 = (Ok (be_fixed 32 h_1559, s'), c')) ∧
  (send_raw_transaction keccak256 rec0 (λ _, true) 100 30000000 env0 ∅ pool_new (v_1559 ++ [184])).1 = Err.
Proof. split; [vm_compute; reflexivity|]. split; [eexists _, _; vm_compute; reflexivity|]. vm_compute; reflexivity. Qed.

(* ---------------------------------------------------------------- *)
(** * C55: an admitted transaction is payable, not stale and not committed *)

(** Is the transaction a call to one of the four system contracts? *)
Definition system_call (t : stx) : Prop := ∃ i, i < 4 ∧ tx_action (unsigned_of t) = Call (repeat 255 19 ++ [i]).
(** Reserved addresses: the system prefix with another last byte. *)
Definition reserved_call (t : stx) : Prop := ∃ a, tx_action (unsigned_of t) = Call a ∧ firstn 19 a = repeat 255 19 ∧ ¬ system_call t.
(** Cost ceiling: gas price times gas limit plus the transferred value, capped at 2^256-1. *)
Definition cost_ceiling (t : stx) : N :=
  N.min (gas_price (unsigned_of t) * gas_limit (unsigned_of t) + tx_value (unsigned_of t)) (2^256 - 1).
Definition u64_fields (t : stx) : Prop := gas_price (unsigned_of t) < 2^64 ∧ gas_limit (unsigned_of t) < 2^64.
(** The chain accepts the sender: validators may call system contracts; for everything else the nonce is not below the account's and
    the balance covers the ceiling. *)
Definition sender_ok (e : env) (t : stx) : Prop :=
  (system_call t ∧ e_validator e (s_sender t) = true) ∨
  (¬ system_call t ∧ (e_account e (s_sender t)).1 <= nonce (unsigned_of t) ∧ cost_ceiling t <= (e_account e (s_sender t)).2).
(** The nonce cache holds what the state says. *)
Definition coherent (e : env) (c : nonce_cache) : Prop := ∀ a n b, c !! a = Some (n, b) → e_account e a = (n, b).
Definition u64_nonces (e : env) : Prop := ∀ a, (e_account e a).1 < 2^64.

Lemma is_call_system_spec t :
  match is_call_system_script (tx_action (unsigned_of t)) with
  | Ok true => system_call t
  | Ok false => ¬ system_call t ∧ ¬ reserved_call t
  | Err => reserved_call t
  | Panic => False
  end.
Proof.
  unfold is_call_system_script, reserved_call, system_call. destruct (tx_action (unsigned_of t)) as [a|] eqn:E.
  - destruct (beqb (firstn 19 a) SYSTEM_PREFIX) eqn:B.
    + apply beqb_eq in B. destruct (existsb (beqb a) SYSTEM_SET) eqn:X.
      * apply existsb_exists in X as (x & Hx & Hb). apply beqb_eq in Hb as <-. unfold SYSTEM_SET, system_contract_address in Hx. cbn [map] in Hx.
        destruct Hx as [<-|[<-|[<-|[<-|[]]]]]; [exists 0|exists 1|exists 2|exists 3]; (split; [lia|reflexivity]).
      * exists a. split; [done|]. split; [done|]. intros (i & Hi & Ha). assert (a = repeat 255 19 ++ [i]) as Ha2 by congruence. clear Ha B. subst a.
        assert (existsb (beqb (repeat 255 19 ++ [i])) SYSTEM_SET = true) as X2; [|rewrite X in X2; discriminate].
        apply existsb_exists. exists (repeat 255 19 ++ [i]). split; [|by apply beqb_eq].
        unfold SYSTEM_SET. apply in_map_iff. exists i. split; [done|]. cbn. lia.
    + assert (firstn 19 a ≠ repeat 255 19) as B2. { intros B2. assert (beqb (firstn 19 a) SYSTEM_PREFIX = true) by by apply beqb_eq. congruence. }
      split; [intros (i & _ & [= ->]); apply B2; reflexivity|]. intros (a' & [= <-] & H & _). done.
  - split; [by intros (i & _ & ?)|by intros (a & ? & _)].
Qed.

Lemma may_cost_ceiling t : u64_fields t → may_cost (unsigned_of t) = cost_ceiling t.
Proof.
  intros [H1 H2]. unfold may_cost, cost_ceiling. rewrite (N.mod_small _ _ H1), (N.mod_small _ _ H2).
  set (x := _ + _). destruct (N.ltb_spec x (2^256)) as [H|H].
  - rewrite N.min_l; [done|]. apply N.lt_succ_r. replace (N.succ (2^256-1)) with (2^256) by reflexivity. done.
  - rewrite N.min_r; [done|]. etransitivity; [|exact H]. apply N.le_sub_l.
Qed.

Lemma check_authorization_spec e c t : coherent e c → u64_nonces e → u64_fields t →
  coherent e (check_authorization e c t).2 ∧
  (check_authorization e c t).1 =
    match is_call_system_script (tx_action (unsigned_of t)) with
    | Ok true => if e_validator e (s_sender t) then Ok 0 else Err
    | Ok false => if (nonce (unsigned_of t) <? (e_account e (s_sender t)).1) || ((e_account e (s_sender t)).2 <? cost_ceiling t)
                  then Err else Ok (nonce (unsigned_of t) - (e_account e (s_sender t)).1)
    | Err => Err
    | Panic => Panic
    end.
Proof.
  intros HC HN HU. unfold check_authorization. rewrite (may_cost_ceiling t HU).
  destruct (is_call_system_script _) as [[|]| |]; [done| |done|done].
  destruct (c !! s_sender t) as [[n b]|] eqn:E.
  - rewrite (HC _ _ _ E). cbn [fst snd]. split; [done|]. destruct (_ <? n); [done|]. by destruct (b <? _).
  - specialize (HN (s_sender t)). destruct (e_account e (s_sender t)) as [an ab] eqn:EA. cbn [fst snd] in *.
    rewrite (N.mod_small _ _ HN). split.
    + intros a n b. destruct (decide (a = s_sender t)) as [->|Na]; [rewrite lookup_insert; by intros [= <- <-]|].
      rewrite lookup_insert_ne by done. apply HC.
    + rewrite (proj2 (N.ltb_lt _ _) HN). destruct (_ <? an); [done|]. by destruct (ab <? _).
Qed.

(** The verdict on one transaction, as a function of the chain state only. *)
Definition verdict (so : stx → bool) (e : env) (t : stx) : Prop :=
  sender_ok e t ∧ ¬ reserved_call t ∧ within_rules (e_chain e) (e_max_size e) t ∧ signed_well so t ∧ e_stored e (hash_of t) = None.
Lemma check_all_spec so e c t : coherent e c → u64_nonces e → u64_fields t →
  coherent e (check_all so e c t).2 ∧
  ((∃ d, (check_all so e c t).1 = Ok d) ↔ verdict so e t) ∧ (check_all so e c t).1 ≠ Panic.
Proof.
  intros HC HN HU. destruct (check_authorization_spec e c t HC HN HU) as [C1 A1]. unfold check_all.
  destruct (check_authorization e c t) as [o c1]. cbn [fst snd] in *. subst o.
  pose proof (is_call_system_spec t) as S. unfold verdict, sender_ok.
  destruct (is_call_system_script _) as [[|]| |]; [| | |done].
  - destruct (e_validator e (s_sender t)).
    2:{ split; [done|]. split; [|done]. split; [by intros [? [=]]|]. intros ([[_ [=]]|[H _]] & _). done. }
    destruct (check_transaction so e t) as [[]| |] eqn:E; unfold check_storage_exist.
    + apply C20_static_checks in E. destruct (e_stored e (hash_of t)).
      * split; [done|]. split; [|done]. split; [by intros [? [=]]|]. intros (_ & _ & _ & _ & ?). done.
      * split; [done|]. split; [|done]. split; [|eauto]. intros _. split; [by left|]. split; [|tauto]. intros (a & _ & _ & N). done.
    + split; [done|]. split; [|done]. split; [by intros [? [=]]|]. intros (_ & _ & H1 & H2 & _).
      assert (check_transaction so e t = Ok tt) by (apply C20_static_checks; tauto). congruence.
    + exfalso. clear -E. unfold check_transaction in E. destruct (u_sig _); [|done]. destruct (s_public t); [|done].
      repeat match type of E with context [if ?o then _ else _] => destruct o; try discriminate end.
  - destruct S as [S1 S2].
    destruct (N.ltb_spec (nonce (unsigned_of t)) (e_account e (s_sender t)).1) as [H1|H1]; cbn [orb].
    { split; [done|]. split; [|done]. split; [by intros [? [=]]|]. intros ([[? _]|(_ & H & _)] & _); [done|lia]. }
    destruct (N.ltb_spec (e_account e (s_sender t)).2 (cost_ceiling t)) as [H2|H2]; cbn [orb].
    { split; [done|]. split; [|done]. split; [by intros [? [=]]|]. intros ([[? _]|(_ & _ & H)] & _); [done|lia]. }
    destruct (check_transaction so e t) as [[]| |] eqn:E; unfold check_storage_exist.
    + apply C20_static_checks in E. destruct (e_stored e (hash_of t)).
      * split; [done|]. split; [|done]. split; [by intros [? [=]]|]. intros (_ & _ & _ & _ & ?). done.
      * split; [done|]. split; [|done]. split; [|eauto]. intros _. split; [by right|]. split; [done|tauto].
    + split; [done|]. split; [|done]. split; [by intros [? [=]]|]. intros (_ & _ & H3 & H4 & _).
      assert (check_transaction so e t = Ok tt) by (apply C20_static_checks; tauto). congruence.
    + exfalso. clear -E. unfold check_transaction in E. destruct (u_sig _); [|done]. destruct (s_public t); [|done].
      repeat match type of E with context [if ?o then _ else _] => destruct o; try discriminate end.
  - split; [done|]. split; [|done]. split; [by intros [? [=]]|]. tauto.
Qed.

(** C55, soundness: a transaction newly accepted by [MemPool::insert] satisfies every rule and is in the pool. *)
Theorem C55_admitted so c e ca s t s' ca' : filed s → coherent e ca → u64_nonces e → u64_fields t →
  mempool_insert so c e ca s t = (Ok s', ca') → pool_contains s (hash_of t) = false →
  verdict so e t ∧ pool_contains s' (hash_of t) = true ∧ coherent e ca'.
Proof.
  intros F HC HN HU H HP. unfold mempool_insert in H. destruct (is_call_system_script _) as [sys| |]; [|done|done].
  destruct (reach_limit c s); [done|]. rewrite HP in H. destruct (check_all_spec so e ca t HC HN HU) as (C1 & V & _).
  destruct (check_all so e ca t) as [[d| |] c2]; [|done|done]. injection H as H <-. cbn [fst snd] in *.
  apply put_get in H as (_ & _ & G); [|done]. split; [apply V; eauto|]. split; [by apply contains_get|done].
Qed.
Print Assumptions C55_admitted.

(** Completeness: below capacity such a transaction is accepted. *)
Theorem C55_accepts so c e ca s t : coherent e ca → u64_nonces e → u64_fields t → pool_len s < c →
  verdict so e t → ∃ s' ca', mempool_insert so c e ca s t = (Ok s', ca').
Proof.
  intros HC HN HU HL HV. unfold mempool_insert. pose proof (is_call_system_spec t) as S.
  destruct (is_call_system_script _) as [sys| |]; [|by destruct HV as (_ & ? & _)|done].
  unfold reach_limit. rewrite (proj2 (N.ltb_ge _ _)) by lia. destruct (pool_contains s (hash_of t)); [eauto|].
  destruct (check_all_spec so e ca t HC HN HU) as (C1 & V & _). apply V in HV as [d Hd].
  destruct (check_all so e ca t) as [o c2]. cbn [fst snd] in *. subst o. unfold put. destruct sys; [eauto|].
  destruct (C10_accepts_below c s (ptx_of t) d HL) as (s' & -> & _). eauto.
Qed.
Print Assumptions C55_accepts.

(** The parallel verification of a batch accepts exactly when each of its transactions would be accepted alone, so the interleaving of
    its tasks does not matter. *)
Theorem C55_batch so e l : ∀ c, coherent e c → u64_nonces e → Forall u64_fields l →
  ((∃ ds, (verify_batch so e c l).1 = Ok ds) ↔ Forall (verdict so e) l) ∧ coherent e (verify_batch so e c l).2.
Proof.
  induction l as [|t l IH]; intros c HC HN HU; cbn; [split; [split; [by constructor|eauto]|done]|].
  inversion HU as [|t0 l0 HU1 HU2]; subst. destruct (check_all_spec so e c t HC HN HU1) as (C1 & V & NP).
  destruct (check_all so e c t) as [o c1]. cbn [fst snd] in *. destruct (IH c1 C1 HN HU2) as [B C2].
  destruct (verify_batch so e c1 l) as [os c2]. cbn [fst snd] in *. split; [|done]. rewrite Forall_cons, <- B, <- V. split.
  - destruct o as [d| |]; [|by intros [? [=]]|by intros [? [=]]]. destruct os as [ds| |]; [|by intros [? [=]]|by intros [? [=]]]. eauto.
  - intros [[d ->] [ds ->]]. eauto.
Qed.
Print Assumptions C55_batch.

(** Flushing re-establishes coherence with whatever the new state is. *)
Theorem C55_flush_coherent timeout ca s hs n e : coherent e (mempool_flush timeout ca s hs n).2.
Proof. intros a n' b. cbn. by rewrite lookup_empty. Qed.

(** Without a flush the cache may be stale: a sender whose balance has been spent is still admitted on the cached balance. *)
Theorem C55_stale_cache_refuted : ∃ e c s t s' c', ¬ coherent e c ∧ u64_nonces e ∧ u64_fields t ∧
  mempool_insert (λ _, true) 100 e c s t = (Ok s', c') ∧ ¬ sender_ok e t.
Proof.
  exists (Env 5 1000 (λ _, (0, 0)) (λ _, false) (λ _, None)), {[ s_sender (st_of v_1559) := (0, 10^18) ]}, pool_new, (st_of v_1559).
  eexists _, _. split.
  { intros H. specialize (H (s_sender (st_of v_1559)) 0 (10^18)). rewrite lookup_singleton in H. specialize (H eq_refl). vm_compute in H. discriminate. }
  split; [intros a; vm_compute; reflexivity|]. split; [split; vm_compute; reflexivity|]. split; [vm_compute; reflexivity|].
  intros [[(i & _ & H) _]|(_ & _ & H)].
  - vm_compute in H. discriminate.
  - vm_compute in H. by apply H.
Qed.
Print Assumptions C55_stale_cache_refuted.

Example C55_example : coherent env0 ∅ ∧ u64_nonces env0 ∧ u64_fields (st_of v_1559) ∧ pool_contains pool_new (hash_of (st_of v_1559)) = false ∧
  (∃ s' c', mempool_insert (λ _, true) 100 env0 ∅ pool_new (st_of v_1559) = (Ok s', c')) ∧ filed pool_new.
Proof.
  split; [intros a n b; by rewrite lookup_empty|]. split; [intros a; vm_compute; reflexivity|]. split; [split; vm_compute; reflexivity|].
  split; [vm_compute; reflexivity|]. split; [eexists _, _; vm_compute; reflexivity|].
  split; intros *; cbn; by rewrite lookup_empty.
Qed.
