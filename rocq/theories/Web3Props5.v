(** C81: the pending transaction count.
    C82: the requests that do end the node.
    C83: gas estimates.
    C84: submission of transactions. *)
From Verif Require Import Bytes BytesProofs Rlp RlpProofs Keccak TxModel TxSpec TxProofs TxProps StorageModel StorageProofs StorageProps BlockModel BlockProofs BloomModel BloomProofs BloomProps Web3Model Web3Props Web3Props2 Web3Props3 Web3Props4.
From Verif Require PoolModel PoolProofs PoolProofs5 PoolProps PoolProps2.
From stdpp Require Import base gmap list fin_maps fin_map_dom.
From Coq Require Import Lia.
Local Open Scope N_scope.
Notation block := BlockModel.block (only parsing).

(* ------------------------------------------------------------------ *)
(** * C82 *)

Lemma g_in_order : in_order keccak256 g_v.
Proof.
  assert (KN : forall i b, known keccak256 (g_v i) b -> b = g_b1 \/ b = g_b0).
  { intros i b [S|S]; [by apply g_saved|]. change (sn_store _ (g_v i)) with g_store in S. rewrite g_latest in S. injection S as <-. by left. }
  assert (TX : forall i n txs, ETxs (Web3Model.W keccak256) n txs ∈ sn_store _ (g_v i) -> n = 1 /\ txs = g_txs).
  { intros i n txs. change (sn_store _ (g_v i)) with g_store. unfold g_store. rewrite !elem_of_cons, elem_of_nil.
    intros [H|[H|[H|[H|[H|[]]]]]]; try discriminate H. injection H as -> ->. done. }
  split.
  - intros i b K. destruct (KN i b K) as [-> | ->].
    + exists g_state1. split; [exact g_state_1|]. intros a. unfold acct_of, g_state1. destruct (beqb a g_bob); [vm_compute; reflexivity|]. destruct (beqb a g_alice); vm_compute; reflexivity.
    + exists g_state0. split; [exact g_state_0|]. intros a. unfold acct_of, g_state0. destruct (beqb a g_bob); vm_compute; reflexivity.
  - intros i b x K X. destruct (KN i b K) as [-> | ->]; [|by apply elem_of_nil in X].
    change (b_tx_hashes g_b1) with [g_h1; g_h2] in X. rewrite !elem_of_cons, elem_of_nil in X.
    assert (E : ETxs (Web3Model.W keccak256) 1 g_txs ∈ g_store) by (unfold g_store; apply elem_of_list_further, elem_of_list_further, elem_of_list_here).
    destruct X as [-> |[-> |[]]]; exists 1, g_txs; [exists g_t1|exists g_t2]; (split; [exact E|]); split; try reflexivity; unfold g_txs;
      [apply elem_of_list_here|apply elem_of_list_further, elem_of_list_here].
  - intros i n txs t E T. apply TX in E as [_ ->]. unfold g_txs in T. rewrite !elem_of_cons, elem_of_nil in T. destruct g_renderable as (R1 & R2 & _).
    destruct T as [-> |[-> |[]]]; done.
  - intros i x t. change (sn_pool _ (g_v i)) with g_pool. unfold g_pool. destruct g_renderable as (R1 & R2 & R3).
    destruct (beqb x g_h1); [by intros [= <-]|]. destruct (beqb x g_h3); [by intros [= <-]|done].
  - intros i a. change (sn_pending _ (g_v i) a) with (if beqb a g_alice then (1, Some 1) else (0, @None N)). destruct (beqb a g_alice); vm_compute; reflexivity.
  - intros i a n. change (sn_pending _ (g_v i) a) with (if beqb a g_alice then (1, Some 1) else (0, @None N)). destruct (beqb a g_alice); [intros [= <-]; vm_compute; reflexivity|done].
  - done.
Qed.
Lemma g_gas_bounded : gas_bounded (fun _ k => (XRevert 0, replicate 36 0 ++ replicate 32 255, k_gas k)).
Proof. intros root k x d g [= _ _ <-]. lia. Qed.
(** Every kind of request is answered on the example chain. *)
Example C82_ex : Web3Props.views keccak256 g_v /\ in_order keccak256 g_v /\
  (exists evm, gas_bounded evm /\ reverts_well evm /\ forall recover mpt cap r, typed r -> harmless keccak256 evm r -> ~ crashes keccak256 recover evm mpt cap g_v r) /\
  sane_raw keccak256 (enc_utx g_u1).
Proof.
  split; [exact g_views|]. split; [exact g_in_order|]. split.
  - exists (fun _ k => (XRevert 0, [1; 2], k_gas k)).
    assert (GB : gas_bounded (fun _ k => (XRevert 0, [1; 2], k_gas k))) by (intros root k x d g [= _ _ <-]; lia).
    split; [exact GB|]. split.
    + intros root k x d g [= _ <- _] _. left. cbn. lia.
    + intros recover mpt cap r T H. by apply C82_no_crash_partial; [exact g_views|exact g_in_order|exact GB|..].
  - split; [discriminate|]. intros u g D G.
    assert (E : dec_utx keccak256 (enc_utx g_u1) = Ok (g_set g_u1 g_h1)) by (vm_compute; reflexivity). rewrite E in D. injection D as <-.
    injection G as <-. discriminate.
Qed.

Section Bad.
  Variable recover : bytes -> bytes -> option bytes.
  Variable mpt : bytes -> bytes -> list bytes.
  Notation crashes evm := (crashes keccak256 recover evm mpt 30000000).

  (** A position that does not fit in 64 bits, whatever the block. *)
  Theorem C82_position_refuted : exists v i pos, Web3Props.views keccak256 v /\ in_order keccak256 v /\ pos < 2^256 /\
    forall evm, crashes evm v (RTxByNumberIndex i pos) /\ crashes evm v (RTxByHashIndex g_x1 pos).
  Proof using.
    exists g_v, BLatest, (2^64). split; [exact g_views|]. split; [exact g_in_order|]. split; [vm_compute; reflexivity|].
    intros evm. split; reflexivity.
  Qed.
  (** A call to a contract that reverts with 68 bytes that are not a message. *)
  Theorem C82_revert_refuted : exists v q evm, Web3Props.views keccak256 v /\ in_order keccak256 v /\ gas_bounded evm /\ call_allowed q /\
    crashes evm v (RCall q None) /\ crashes evm v (REstimate q None).
  Proof using.
    exists g_v, g_req, (fun _ k => (XRevert 0, replicate 36 0 ++ replicate 32 255, k_gas k)).
    split; [exact g_views|]. split; [exact g_in_order|]. split; [exact g_gas_bounded|]. split; [exact g_allowed|].
    split; vm_compute; reflexivity.
  Qed.
  (** The empty raw transaction. *)
  Theorem C82_empty_refuted : exists v, Web3Props.views keccak256 v /\ in_order keccak256 v /\ forall evm, crashes evm v (RSendRaw []).
  Proof using. exists g_v. split; [exact g_views|]. split; [exact g_in_order|]. reflexivity. Qed.
  (** A transaction with an empty r and a long s. *)
  Definition g_bad : utx := Utx (Legacy (LegacyTx 4 7000000000 50000 (Call g_bob) 5 [1; 2])) (Some (SigC [] (replicate 65 1) 0)) (Some 2022) [].
  Theorem C82_signature_refuted : exists v raw, Web3Props.views keccak256 v /\ in_order keccak256 v /\ forall evm, crashes evm v (RSendRaw raw).
  Proof using. exists g_v, (enc_utx g_bad). split; [exact g_views|]. split; [exact g_in_order|]. intros evm. vm_compute. reflexivity. Qed.
End Bad.

(* ------------------------------------------------------------------ *)
(** * C81 *)

(** The pool holds a transaction of account [a] with nonce [n] that has not been superseded (pools number accounts). *)
Definition waits (s : PoolModel.pool) (a n : N) : Prop :=
  exists p, PoolProofs5.live s p /\ PoolModel.psender p = a /\ PoolModel.pnonce p = n.
(** The first nonce from [n] on that is not taken. *)
Definition first_free (n : N) (taken : N -> Prop) (m : N) : Prop := n <= m /\ ~ taken m /\ forall k, n <= k < m -> taken k.

Section Pending.
  Variable keccak : bytes -> bytes.
  Notation W := (Web3Model.W keccak).
  Notation snap := (snap keccak).

  (** What the pool hands to the handler (get_tx_count_by_address, pool.rs 94-101): the count, and the height of the last flush. *)
  Definition pool_view (v : snap) (s : PoolModel.pool) (addr : bytes -> N) : Prop :=
    forall a, exists n, sn_pending _ v a = (N.of_nat (PoolModel.pool_count s (addr a)), n) /\
      match n with
      | Some n => is_Some (PoolModel.p_gap s !! n) /\ forall m, is_Some (PoolModel.p_gap s !! m) -> m <= n
      | None => PoolModel.p_gap s = ∅
      end.
  (** The block the pool has seen last. *)
  Definition pool_block (v : nat -> snap) (s : PoolModel.pool) (b : block) : Prop :=
    Web3Props.saved keccak (v 0%nat) b /\ is_Some (PoolModel.p_gap s !! h_number (b_header b)) /\
      (forall m, is_Some (PoolModel.p_gap s !! m) -> m <= h_number (b_header b)) \/
    PoolModel.p_gap s = ∅ /\ latest_at W (sn_store _ (v 1%nat)) = Some b.

  Lemma pool_count_nonces c t srt ops s a : PoolProps.reachable c t srt ops s -> PoolModel.p_co s = [] ->
    exists l, NoDup l /\ length l = PoolModel.pool_count s a /\ forall n, n ∈ l <-> waits s a n.
  Proof using.
    intros R C. destruct (PoolProps2.C19_count_meaning c t srt ops s a R C) as (l & ND & L & M).
    exists (PoolModel.pnonce <$> l). split; [|split; [by rewrite fmap_length|]].
    - apply NoDup_fmap_2_strong; [|done]. intros p q P Q E. apply M in P as [P1 P2]. apply M in Q as [Q1 Q2].
      apply (PoolProps2.C15_one_live c t srt ops s p q R C P1 Q1); congruence.
    - intros n. rewrite elem_of_list_fmap. split.
      + intros (p & -> & P). apply M in P as [P1 P2]. by exists p.
      + intros (p & P1 & P2 & <-). exists p. split; [done|]. by apply M.
  Qed.

  (** The answer is the nonce of the account in the last block the pool has seen, and one more for every nonce that waits. *)
  Theorem C81_sum_partial : forall v s addr c t srt ops b w a, Web3Props.views keccak v -> pool_view (v 0%nat) s addr ->
    PoolProps.reachable c t srt ops s -> PoolModel.p_co s = [] -> pool_block v s b -> state_of keccak (v 0%nat) b w -> sa_nonce (acct_of w a) < 2^255 ->
    exists l, NoDup l /\ (forall n, n ∈ l <-> waits s (addr a) n) /\
      Web3Model.exec keccak v 0 (eth_getTransactionCount a (Some BPending)) = Ok (sa_nonce (acct_of w a) + N.of_nat (length l)).
  Proof using.
    intros v s addr c t srt ops b w a V PV R CO B H NB. destruct (pool_count_nonces c t srt ops s (addr a) R CO) as (l & ND & LE & M).
    exists l. split; [done|]. split; [done|]. destruct (PV a) as (n & E & G).
    assert (S : selects keccak v 1 n b).
    { destruct B as [(B1 & B2 & B3)|(B1 & B2)].
      - destruct n as [n|]; [|rewrite G in B2; by destruct B2 as [? B2]].
        assert (n = h_number (b_header b)) as ->. { destruct G as [G1 G2]. apply G2 in B2. apply B3 in G1. lia. }
        apply selects_saved; [done|]. apply (saved_later keccak (v 0%nat)); [apply views_later; [done|lia]|done].
      - destruct n as [n|]; [destruct G as [[x X] _]; by rewrite B1 in X|]. by apply selects_latest. }
    assert (LB : (PoolModel.pool_count s (addr a) <= 65)%nat) by (by eapply PoolProps2.C19_account_limit).
    unfold eth_getTransactionCount. cbn [from_option id]. rewrite (exec_get keccak v 0 _ _ (sn_pending _ (v 0%nat) a)) by reflexivity.
    rewrite E. cbn [snd fst]. rewrite exec_or_else.
    rewrite (selects_account keccak v 1 n b w a _ (Ok (sa_nonce (acct_of w a) + N.of_nat (length l)))); [done|done|done|done|].
    intros r _. cbn [ac_nonce]. rewrite LE. destruct (_ <? 2^256) eqn:X; [done|]. apply N.ltb_ge in X. exfalso.
    change (2^256) with (2^255 + 2^255) in X. assert (65 <= 2^255) by (vm_compute; discriminate). lia.
  Qed.
  (** That is the first free nonce, when the waiting transactions follow each other from the nonce of the account. *)
  Theorem C81_next_partial : forall v s addr c t srt ops b w a, Web3Props.views keccak v -> pool_view (v 0%nat) s addr ->
    PoolProps.reachable c t srt ops s -> PoolModel.p_co s = [] -> pool_block v s b -> state_of keccak (v 0%nat) b w -> sa_nonce (acct_of w a) < 2^255 ->
    (exists last, sa_nonce (acct_of w a) <= last /\ forall k, waits s (addr a) k <-> sa_nonce (acct_of w a) <= k < last) ->
    exists m, Web3Model.exec keccak v 0 (eth_getTransactionCount a (Some BPending)) = Ok m /\ first_free (sa_nonce (acct_of w a)) (waits s (addr a)) m.
  Proof using.
    intros v s addr c t srt ops b w a V PV R CO B H NB (last & LE & C).
    destruct (C81_sum_partial v s addr c t srt ops b w a V PV R CO B H NB) as (l & ND & M & X).
    eexists. split; [exact X|]. set (n0 := sa_nonce (acct_of w a)) in *.
    assert (Z : N.of_nat (length l) = last - n0).
    { assert (P : l ≡ₚ ((λ k, n0 + N.of_nat k) <$> seq 0 (N.to_nat (last - n0)))).
      { apply NoDup_Permutation; [done| |].
        - apply NoDup_fmap_2_strong; [intros x y _ _ Q; lia|apply NoDup_seq].
        - intros k. rewrite M, C, elem_of_list_fmap. split.
          + intros K. exists (N.to_nat (k - n0)). rewrite elem_of_seq. lia.
          + intros (j & -> & J). rewrite elem_of_seq in J. lia. }
      rewrite P, fmap_length, seq_length. lia. }
    rewrite Z. split; [lia|]. split; [rewrite C; lia|]. intros k K. apply C. lia.
  Qed.
End Pending.

(** The example chain with a pool. *)
Definition g_flush (s : PoolModel.pool) : option N := fold_right (fun n m => Some (N.max n (default 0 m))) None (map_to_list (PoolModel.p_gap s)).*1.
Definition g_view (s : PoolModel.pool) : nat -> snap keccak256 := fun _ =>
  Snap keccak256 g_store g_trie g_pool (fun a => (N.of_nat (PoolModel.pool_count s (be_val a)), g_flush s)) (fun _ => Ok tt).
Definition g_go (ops : list PoolModel.op) : PoolModel.pool := match PoolProps.go ops with Ok s => s | _ => PoolModel.pool_new end.
Definition g_al : N := Eval vm_compute in be_val g_alice.
Lemma g_view_ok s : (map_to_list (PoolModel.p_gap s)).*1 = [1] -> Web3Props.views keccak256 (g_view s) /\ state_of keccak256 (g_view s 0%nat) g_b1 g_state1 /\
  pool_view keccak256 (g_view s 0%nat) s be_val /\ pool_block keccak256 (g_view s) s g_b1.
Proof.
  intros E. split; [exact g_views|]. split; [exact g_state_1|].
  assert (F : g_flush s = Some 1). { unfold g_flush. by rewrite E. }
  assert (K : forall m, is_Some (PoolModel.p_gap s !! m) <-> m ∈ [1]).
  { intros m. rewrite <- E, elem_of_list_fmap. split.
    - intros [x X]. exists (m, x). split; [done|]. by apply elem_of_map_to_list.
    - intros ([m' x] & -> & X). exists x. by apply elem_of_map_to_list in X. }
  assert (L : forall m, is_Some (PoolModel.p_gap s !! m) -> m <= 1). { intros m X. apply K, elem_of_list_singleton in X as ->. done. }
  assert (O : is_Some (PoolModel.p_gap s !! 1)). { apply K. apply elem_of_list_here. }
  split.
  - intros a. exists (Some 1). split; [by rewrite <- F|]. done.
  - left. split; [|done]. apply g_saved. by left.
Qed.

Lemma g_waits s l : map_to_list (PoolModel.p_txmap s) = l -> forall a n, waits s a n <->
  exists p, p ∈ l.*2 /\ PoolModel.p_txmap s !! PoolModel.phash p = Some p /\ PoolModel.is_dropped (PoolModel.p_flags s) p = false /\ PoolModel.psender p = a /\ PoolModel.pnonce p = n.
Proof.
  intros <- a n. unfold waits, PoolProofs5.live. split.
  - intros (p & [P1 P2] & P3 & P4). exists p. split; [|split; [done|]].
    + apply elem_of_list_fmap. exists (PoolModel.phash p, p). split; [done|]. by apply elem_of_map_to_list.
    + split; [|done]. by apply PoolProofs.is_dropped_false.
  - intros (p & _ & P1 & P2 & P3 & P4). exists p. split; [|done]. split; [done|]. by apply PoolProofs.is_dropped_false.
Qed.
Definition g_tx (h nonce : N) : PoolModel.ptx := PoolProps.T h g_al nonce 5.
Definition g_ops1 : list PoolModel.op := [PoolModel.OFlush [] 1; PoolModel.OInsert (g_tx 11 6) true 0; PoolModel.OInsert (g_tx 12 7) true 1; PoolModel.ORefresh].
Definition g_ops2 : list PoolModel.op := [PoolModel.OFlush [] 1; PoolModel.OInsert (g_tx 11 8) true 2; PoolModel.ORefresh].
Definition g_ops3 : list PoolModel.op := [PoolModel.OFlush [] 1; PoolModel.OInsert (g_tx 11 6) true 0].
Definition g_ops4 : list PoolModel.op := [PoolModel.OFlush [] 1; PoolModel.OInsertSys (PoolModel.Ptx 11 g_al 6 5 21000 [1])].
Definition g_p1 := g_go g_ops1. Definition g_p2 := g_go g_ops2. Definition g_p3 := g_go g_ops3. Definition g_p4 := g_go g_ops4.
Lemma g_reach ops : PoolProps.consistentb ops = true -> match PoolProps.go ops with Ok _ => True | _ => False end ->
  PoolProps.reachable 100 20 PoolModel.isort ops (g_go ops).
Proof. intros C. unfold g_go. destruct (PoolProps.go ops) eqn:E; [|done..]. intros _. by apply PoolProps.go_reachable. Qed.

Lemma g_waits1 k : waits g_p1 g_al k <-> 6 <= k < 8.
Proof.
  rewrite (g_waits g_p1 [(11, PoolModel.Ptr 0 (g_tx 11 6)); (12, PoolModel.Ptr 1 (g_tx 12 7))]) by (vm_compute; reflexivity). split.
  - intros (p & P & _ & _ & _ & <-). cbn in P. rewrite !elem_of_cons, elem_of_nil in P. destruct P as [-> |[-> |[]]]; cbn; lia.
  - intros K. assert (k = 6 \/ k = 7) as [-> | ->] by lia.
    + exists (PoolModel.Ptr 0 (g_tx 11 6)). split; [apply elem_of_list_here|]. repeat split; vm_compute; reflexivity.
    + exists (PoolModel.Ptr 1 (g_tx 12 7)). split; [apply elem_of_list_further, elem_of_list_here|]. repeat split; vm_compute; reflexivity.
Qed.
(** Two transactions wait, nonces 6 and 7: the next one is 8. *)
Example C81_ex : Web3Props.views keccak256 (g_view g_p1) /\ pool_view keccak256 (g_view g_p1 0%nat) g_p1 be_val /\
  PoolProps.reachable 100 20 PoolModel.isort g_ops1 g_p1 /\ PoolModel.p_co g_p1 = [] /\ pool_block keccak256 (g_view g_p1) g_p1 g_b1 /\
  state_of keccak256 (g_view g_p1 0%nat) g_b1 g_state1 /\ (forall k, waits g_p1 (be_val g_alice) k <-> sa_nonce (acct_of g_state1 g_alice) <= k < 8) /\
  Web3Model.exec keccak256 (g_view g_p1) 0 (eth_getTransactionCount g_alice (Some BPending)) = Ok 8.
Proof.
  destruct (g_view_ok g_p1) as (V & S & PV & PB); [vm_compute; reflexivity|].
  split; [exact V|]. split; [exact PV|]. split; [apply g_reach; vm_compute; done|]. split; [vm_compute; reflexivity|]. split; [exact PB|].
  split; [exact S|]. split; [|vm_compute; reflexivity].
  intros k. change (sa_nonce (acct_of g_state1 g_alice)) with 6. change (be_val g_alice) with g_al. apply g_waits1.
Qed.

(** One transaction waits with nonce 8, nonces 6 and 7 are free; the answer is 7. *)
Theorem C81_gap_refuted : exists v s ops a m, Web3Props.views keccak256 v /\ pool_view keccak256 (v 0%nat) s be_val /\
  PoolProps.reachable 100 20 PoolModel.isort ops s /\ PoolModel.p_co s = [] /\ pool_block keccak256 v s g_b1 /\ state_of keccak256 (v 0%nat) g_b1 g_state1 /\
  Web3Model.exec keccak256 v 0 (eth_getTransactionCount a (Some BPending)) = Ok m /\ ~ first_free (sa_nonce (acct_of g_state1 a)) (waits s (be_val a)) m.
Proof.
  destruct (g_view_ok g_p2) as (V & S & PV & PB); [vm_compute; reflexivity|].
  exists (g_view g_p2), g_p2, g_ops2, g_alice, 7.
  split; [exact V|]. split; [exact PV|]. split; [apply g_reach; vm_compute; done|]. split; [vm_compute; reflexivity|]. split; [exact PB|].
  split; [exact S|]. split; [vm_compute; reflexivity|]. intros (_ & _ & F). specialize (F 6).
  assert (waits g_p2 (be_val g_alice) 6) as X. { apply F. change (sa_nonce (acct_of g_state1 g_alice)) with 6. lia. }
  rewrite (g_waits g_p2 [(11, PoolModel.Ptr 0 (g_tx 11 8))]) in X by (vm_compute; reflexivity).
  destruct X as (p & P & _ & _ & _ & E). cbn in P. apply elem_of_list_singleton in P as ->. discriminate E.
Qed.
(** A transaction accepted a moment ago is not counted before the background task has run. *)
Theorem C81_fresh_refuted : exists v s ops a m, Web3Props.views keccak256 v /\ pool_view keccak256 (v 0%nat) s be_val /\
  PoolProps.reachable 100 20 PoolModel.isort ops s /\ pool_block keccak256 v s g_b1 /\ state_of keccak256 (v 0%nat) g_b1 g_state1 /\
  Web3Model.exec keccak256 v 0 (eth_getTransactionCount a (Some BPending)) = Ok m /\ ~ first_free (sa_nonce (acct_of g_state1 a)) (waits s (be_val a)) m.
Proof.
  destruct (g_view_ok g_p3) as (V & S & PV & PB); [vm_compute; reflexivity|].
  exists (g_view g_p3), g_p3, g_ops3, g_alice, 6.
  split; [exact V|]. split; [exact PV|]. split; [apply g_reach; vm_compute; done|]. split; [exact PB|].
  split; [exact S|]. split; [vm_compute; reflexivity|]. intros (_ & F & _). apply F. change (be_val g_alice) with g_al.
  rewrite (g_waits g_p3 [(11, PoolModel.Ptr 0 (g_tx 11 6))]) by (vm_compute; reflexivity).
  exists (PoolModel.Ptr 0 (g_tx 11 6)). split; [apply elem_of_list_here|]. repeat split; vm_compute; reflexivity.
Qed.
(** A call of a system contract waits with the answered nonce. *)
Theorem C81_system_refuted : exists v s ops a m, Web3Props.views keccak256 v /\ pool_view keccak256 (v 0%nat) s be_val /\
  PoolProps.reachable 100 20 PoolModel.isort ops s /\ PoolModel.p_co s = [] /\ pool_block keccak256 v s g_b1 /\ state_of keccak256 (v 0%nat) g_b1 g_state1 /\
  Web3Model.exec keccak256 v 0 (eth_getTransactionCount a (Some BPending)) = Ok m /\
  exists h tx, PoolModel.pool_get s h = Some tx /\ PoolModel.t_sender tx = be_val a /\ PoolModel.t_nonce tx = m.
Proof.
  destruct (g_view_ok g_p4) as (V & S & PV & PB); [vm_compute; reflexivity|].
  exists (g_view g_p4), g_p4, g_ops4, g_alice, 6.
  split; [exact V|]. split; [exact PV|]. split; [apply g_reach; vm_compute; done|]. split; [vm_compute; reflexivity|]. split; [exact PB|].
  split; [exact S|]. split; [vm_compute; reflexivity|]. exists 11, (PoolModel.Ptx 11 g_al 6 5 21000 [1]). repeat split; vm_compute; reflexivity.
Qed.

(* ------------------------------------------------------------------ *)
(** * C83 *)

Section Estimate.
  Variable keccak : bytes -> bytes.
  Variable evm : bytes -> xcall -> exit_reason * bytes * N.

  (** An estimate covers what the run used, with at most a quarter on top; a run that used between 21000 and 24 million gas
      gets an estimate that passes the gas limit tests of eth_sendRawTransaction under the default cap. *)
  Theorem C83_estimate_partial : forall v i b q k d g m x, Web3Props.views keccak v -> names keccak (v 0%nat) i b ->
    (forall y, i <> Some (BHash y)) -> i <> Some BEarliest ->
    call_allowed q -> (forall g, cq_gas q = Some g -> 21000 <= g) ->
    sn_trie _ (v 0%nat) (h_state_root (b_header b)) = Some m ->
    context_of b q k -> evm (h_state_root (b_header b)) k = (XSucceed x, d, g) -> g <= 30000000 ->
    exists e, Web3Model.exec keccak v 0 (eth_estimateGas evm q i) = Ok e /\ g <= e /\ 4 * e <= 5 * g /\
      (21000 <= g <= 24000000 -> 21000 <= e <= 30000000).
  Proof using keccak evm.
    intros v i b q k d g m x V N NH NE A LO M C E G.
    pose proof (C79_estimate keccak evm v i b q k (XSucceed x) d g m V N NH NE A LO M C E G) as R. cbn in R.
    exists (g / 4 + g). split; [exact R|]. pose proof (N.mul_div_le g 4 ltac:(lia)). split; [lia|]. split; [lia|]. intros [L U]. split; [lia|].
    assert (g / 4 <= 6000000). { change 6000000 with (24000000 / 4). by apply N.div_le_mono. } lia.
  Qed.
End Estimate.
(** A run that uses all the gas it is given. *)
Definition g_hungry (r : bytes) (k : xcall) : exit_reason * bytes * N := (XSucceed 1, [7], k_gas k).
Example C83_ex : exists v i b q k d g m x, Web3Props.views keccak256 v /\ names keccak256 (v 0%nat) i b /\ i = Some (BNum 1) /\
  call_allowed q /\ cq_gas q = Some 50000 /\ sn_trie _ (v 0%nat) (h_state_root (b_header b)) = Some m /\
  context_of b q k /\ g_evm (h_state_root (b_header b)) k = (XSucceed x, d, g) /\ g = 21100 /\
  Web3Model.exec keccak256 v 0 (eth_estimateGas g_evm q i) = Ok 26375.
Proof.
  exists g_v, (Some (BNum 1)), g_b1, g_req, (call_of (b_header g_b1) g_req). do 4 eexists.
  split; [exact g_views|]. split; [apply g_names|]. split; [done|]. split; [exact g_allowed|]. split; [done|].
  split; [vm_compute; reflexivity|]. split; [by split|]. split; [vm_compute; reflexivity|]. split; vm_compute; reflexivity.
Qed.
(** The estimate may exceed the gas the request allows and the limit no transaction may exceed. *)
Theorem C83_limit_refuted : exists v q evm e, Web3Props.views keccak256 v /\ call_allowed q /\ gas_bounded evm /\ cq_gas q = Some 30000000 /\
  Web3Model.exec keccak256 v 0 (eth_estimateGas evm q None) = Ok e /\ 30000000 < e /\
  forall recover raw u h, dec_utx keccak256 raw = Ok u -> gas_limit (u_unsigned u) = e ->
    Web3Model.exec keccak256 v 0 (eth_sendRawTransaction keccak256 recover 30000000 raw) <> Ok h.
Proof.
  exists g_v, (CReq (Some g_alice) (Some g_bob) None None (Some 30000000) None (Some [1]) None), g_hungry, 37500000.
  split; [exact g_views|]. split. { split; [by left| | |]; [intros g [= <-]; lia|done|]. intros a [= <-]. discriminate. }
  split. { intros root k x d g [= _ _ <-]. lia. }
  split; [done|]. split; [vm_compute; reflexivity|]. split; [lia|].
  intros recover raw u h D G. unfold eth_sendRawTransaction. rewrite D.
  destruct (_ =? 0); [done|]. destruct (_ <? gas_price _); [done|]. rewrite G. change (37500000 <? MIN_TX_GAS) with false.
  change (30000000 <? 37500000) with true. done.
Qed.

(* ------------------------------------------------------------------ *)
(** * C84 *)

Section Send.
  Variable keccak : bytes -> bytes.
  Variable recover : bytes -> bytes -> option bytes.

  (** Who sent a transaction: the signer of its payload, or, for a signature that is not 65 bytes, what the cell dep names. *)
  Definition sent_by (u : utx) (a : bytes) : Prop :=
    exists g, u_sig u = Some g /\
      (((length (sg_r g) + length (sg_s g) + 1 = 65)%nat /\ exists p, recover (keccak (signing_payload (u_unsigned u) (u_chain u))) (sg_r g ++ sg_s g ++ [sg_v g]) = Some p /\ a = skipn 12 (keccak p)) \/
       ((length (sg_r g) + length (sg_s g) + 1 <> 65)%nat /\ exists r c pk, sg_r g = 0 :: r /\ dec_cell_dep_with_pub_key r = Some (c, pk) /\ a = skipn 12 (keccak pk))).

  Lemma dec_hash_is raw u : dec_utx keccak raw = Ok u -> u_hash u = keccak raw.
  Proof using.
    unfold dec_utx. destruct raw as [|h rest]; [done|].
    destruct (128 <=? h).
    { unfold dec_legacy. set (raw := h :: rest). destruct (item_count raw) as [n|]; [|done]. cbn [obind of_option].
      destruct (n =? 9)%nat; [|done]. unfold obind. repeat (case_match; [|done]). intros [= <-]. done. }
    destruct (h =? 1) eqn:H1.
    { apply N.eqb_eq in H1 as ->. unfold dec_eip2930. destruct (item_count rest) as [n|]; [|done]. cbn [obind of_option].
      destruct (n =? 11)%nat; [|done]. unfold obind. repeat (case_match; [|done]). intros [= <-]. done. }
    destruct (h =? 2) eqn:H2; [|done].
    apply N.eqb_eq in H2 as ->. unfold dec_eip1559. destruct (item_count rest) as [n|]; [|done]. cbn [obind of_option].
    destruct (n =? 12)%nat; [|done]. unfold obind. repeat (case_match; [|done]). intros [= <-]. done.
  Qed.

  (** A transaction that is accepted: the answer is the digest of the submitted bytes; the pool was handed exactly the decoded
      transaction, with its sender; the bytes are the encoding of that transaction, short of a collision; price and gas limit are in range. *)
  Theorem C84_accepted : forall v cap raw h, Web3Model.exec keccak v 0 (eth_sendRawTransaction keccak recover cap raw) = Ok h ->
    h = keccak raw /\ exists u t, dec_utx keccak raw = Ok u /\ s_tx t = u /\ sent_by u (s_sender t) /\ u_hash u = h /\
      sn_admit _ (v 0%nat) t = Ok tt /\
      1 <= gas_price (u_unsigned u) <= 500000000000 /\ 21000 <= gas_limit (u_unsigned u) <= cap /\
      (raw = enc_utx u \/ raw <> enc_utx u /\ keccak raw = keccak (enc_utx u)).
  Proof using.
    intros v cap raw h. unfold eth_sendRawTransaction. destruct (dec_utx keccak raw) as [u| |] eqn:D; [|done..].
    destruct (gas_price _ =? 0) eqn:E1; [done|]. destruct (MAX_GAS_PRICE <? _) eqn:E2; [done|].
    destruct (_ <? MIN_TX_GAS) eqn:E3; [done|]. destruct (cap <? _) eqn:E4; [done|].
    destruct (check_hash keccak u) eqn:E5; [|done]. cbn [negb]. pose proof (dec_hash_is raw u D) as HU.
    unfold from_unverified. destruct (u_sig u) as [g|] eqn:SG; [|done].
    destruct (sender_of keccak recover u g) as [[a p]| |] eqn:SO; [|done..].
    apply N.eqb_neq in E1. apply N.ltb_ge in E2, E3, E4. change MAX_GAS_PRICE with 500000000000 in E2. change MIN_TX_GAS with 21000 in E3.
    apply beqb_eq in E5. unfold get_hash in E5.
    cbn [get bind Web3Model.exec Web3Model.answer]. destruct (sn_admit _ (v 0%nat) _) as [[]| |] eqn:AD; [|done..]. cbn [bind ret Web3Model.exec s_tx calc_hash u_hash].
    intros [= <-]. unfold get_hash. split; [congruence|]. exists u, (Stx (calc_hash keccak u) a (Some p)).
    split; [done|]. split. { unfold calc_hash, get_hash. cbn. rewrite <- E5. by destruct u. }
    split.
    { exists g. split; [done|]. unfold sender_of in SO. destruct (is_eth_sig g) eqn:EG.
      - left. destruct (recover _ _) as [p'|] eqn:RC; [|done]. injection SO as <- <-. split; [|by exists p'].
        unfold is_eth_sig in EG. by apply Nat.eqb_eq in EG.
      - right. unfold interop_sender in SO. destruct (sg_r g) as [|[|x] r] eqn:R; [done| |done].
        destruct (dec_cell_dep_with_pub_key r) as [[c pk]|] eqn:DC; [|done]. injection SO as <- <-.
        split; [|by exists r, c, pk]. unfold is_eth_sig in EG. apply Nat.eqb_neq in EG. unfold sig_len in EG. by rewrite R in EG. }
    split; [done|]. split; [done|]. split; [lia|]. split; [lia|].
    destruct (decide (raw = enc_utx u)); [by left|]. right. split; [done|]. congruence.
  Qed.
  (** The encoding of a well-formed signed transaction in range is accepted whenever the pool takes it. *)
  Theorem C84_accepts : forall v cap u t, wf_signed_utx u -> len (enc_utx u) < 2^64 ->
    1 <= gas_price (u_unsigned u) <= 500000000000 -> 21000 <= gas_limit (u_unsigned u) <= cap ->
    from_unverified keccak recover u = Ok t -> sn_admit _ (v 0%nat) t = Ok tt ->
    Web3Model.exec keccak v 0 (eth_sendRawTransaction keccak recover cap (enc_utx u)) = Ok (keccak (enc_utx u)).
  Proof using.
    intros v cap u t WF L [P1 P2] [G1 G2] F AD. unfold eth_sendRawTransaction. rewrite C01_raw_roundtrip_fields by done. cbn [u_unsigned].
    destruct (gas_price _ =? 0) eqn:E1; [apply N.eqb_eq in E1; lia|].
    destruct (MAX_GAS_PRICE <? _) eqn:E2; [apply N.ltb_lt in E2; change MAX_GAS_PRICE with 500000000000 in E2; lia|].
    destruct (_ <? MIN_TX_GAS) eqn:E3; [apply N.ltb_lt in E3; change MIN_TX_GAS with 21000 in E3; lia|].
    destruct (cap <? _) eqn:E4; [apply N.ltb_lt in E4; lia|].
    assert (check_hash keccak (Utx (u_unsigned u) (u_sig u) (u_chain u) (keccak (enc_utx u))) = true) as ->.
    { unfold check_hash, get_hash. by apply beqb_eq. }
    cbn [negb]. assert (FE : from_unverified keccak recover (Utx (u_unsigned u) (u_sig u) (u_chain u) (keccak (enc_utx u))) = Ok t).
    { rewrite <- F. reflexivity. }
    rewrite FE. cbn [get bind Web3Model.exec Web3Model.answer]. rewrite AD. cbn [bind ret Web3Model.exec].
    unfold from_unverified in F. destruct (u_sig u) as [g|]; [|done]. destruct (sender_of _ _ _ _) as [[a p]| |]; [|done..]. injection F as <-. done.
  Qed.
End Send.

(** The third example transaction is accepted. *)
Definition g_rec : bytes -> bytes -> option bytes := fun _ _ => Some (repeat 1 64).
Example C84_ex : wf_signed_utx g_u3 /\ len (enc_utx g_u3) < 2^64 /\ 1 <= gas_price (u_unsigned g_u3) <= 500000000000 /\
  21000 <= gas_limit (u_unsigned g_u3) <= 30000000 /\ (exists t, from_unverified keccak256 g_rec g_u3 = Ok t /\ sn_admit _ g_snap t = Ok tt) /\
  Web3Model.exec keccak256 g_v 0 (eth_sendRawTransaction keccak256 g_rec 30000000 (enc_utx g_u3)) = Ok g_h3.
Proof.
  split; [|split; [vm_compute; reflexivity|split; [vm_compute; split; discriminate|split; [vm_compute; split; discriminate|]]]].
  - split.
    + assert (WB : wf_bytes g_bob) by (unfold wf_bytes; repeat (constructor; [vm_compute; reflexivity|]); constructor).
      split; [vm_compute; reflexivity|]. split; [vm_compute; reflexivity|]. split; [vm_compute; reflexivity|].
      split; [by split|]. split; [vm_compute; reflexivity|]. constructor.
    + split; [split|].
      * unfold wf_bytes; repeat (constructor; [vm_compute; reflexivity|]); constructor.
      * split; [unfold wf_bytes; repeat (constructor; [vm_compute; reflexivity|]); constructor|]. split; [vm_compute; reflexivity|]. by left.
      * split; vm_compute; reflexivity.
  - split; [|vm_compute; reflexivity]. eexists. split; vm_compute; reflexivity.
Qed.

Print Assumptions C81_sum_partial. Print Assumptions C81_next_partial. Print Assumptions C81_gap_refuted. Print Assumptions C81_fresh_refuted.
Print Assumptions C81_system_refuted. Print Assumptions C82_position_refuted. Print Assumptions C82_revert_refuted. Print Assumptions C82_empty_refuted.
Print Assumptions C82_signature_refuted. Print Assumptions C83_estimate_partial. Print Assumptions C83_limit_refuted. Print Assumptions C84_accepted. Print Assumptions C84_accepts.
