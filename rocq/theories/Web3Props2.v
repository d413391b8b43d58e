(** C80: block, transaction and receipt lookups of the RPC server agree with the committed block. *)
From Verif Require Import Bytes BytesProofs Rlp RlpProofs TxModel TxSpec TxProofs StorageModel StorageProofs StorageProps BlockModel BlockProofs BloomModel BloomProofs BloomProps Web3Model Web3Props.
From stdpp Require Import base gmap list.
From Coq Require Import Lia.
Local Open Scope N_scope.
Notation block := BlockModel.block (only parsing).

(** A transaction whose signature can be shown: 64-bit v, and r and s of at most 32 bytes when together
    they look like an Ethereum signature (C82 derives it for decoded transactions). *)
Record renderable (t : stx) : Prop := {
  rn_v : match u_sig (s_tx t) with Some g => sg_v g | None => 0 end +
         match u_chain (s_tx t) with Some c => 2 * c + 35 | None => 27 end < 2^64;
  rn_rs : forall g, u_sig (s_tx t) = Some g -> (length (sg_r g) + length (sg_s g) = 64)%nat ->
          (length (sg_r g) = 32 /\ length (sg_s g) = 32)%nat }.

(** What a shown transaction says about the transaction. *)
Record describes (t : stx) (w : wtx) : Prop := {
  de_hash : wt_hash w = u_hash (s_tx t);
  de_from : wt_from w = s_sender t;
  de_body :
    let to a := match a with Call x => Some x | Create => None end in
    match u_unsigned (s_tx t) with
    | Legacy (LegacyTx n p g a x d) => wt_type w = 0 /\ wt_nonce w = n /\ wt_price w = p /\ wt_gas w = g /\ wt_to w = to a /\
        wt_value w = x /\ wt_input w = d /\ wt_access w = [] /\ wt_max_prio w = None
    | Eip2930 (Eip2930Tx n p g a x d l) => wt_type w = 1 /\ wt_nonce w = n /\ wt_price w = p /\ wt_gas w = g /\ wt_to w = to a /\
        wt_value w = x /\ wt_input w = d /\ wt_access w = l /\ wt_max_prio w = None
    | Eip1559 (Eip1559Tx n m p g a x d l) => wt_type w = 2 /\ wt_nonce w = n /\ wt_price w = N.max p m /\ wt_gas w = g /\ wt_to w = to a /\
        wt_value w = x /\ wt_input w = d /\ wt_access w = l /\ wt_max_prio w = Some m
    end;
  de_chain : wt_chain w = u_chain (s_tx t);
  de_public : wt_public w = s_public t;
  de_raw : wt_raw w = enc_utx (s_tx t);
  de_sig : forall g, u_sig (s_tx t) = Some g ->
    wt_v w = sg_v g + match u_chain (s_tx t) with Some c => 2 * c + 35 | None => 27 end /\
    (wt_r w, wt_s w) = if (length (sg_r g) + length (sg_s g) =? 64)%nat then (inl (be_val (sg_r g)), inl (be_val (sg_s g)))
                       else (inr (sg_r g), inr (sg_s g)) }.
(** Where it says the transaction is. *)
Definition located (w : wtx) (number : N) (hash : bytes) (index : N) : Prop :=
  wt_number w = Some number /\ wt_bhash w = Some hash /\ wt_index w = Some index.
Definition unlocated (w : wtx) : Prop := wt_number w = None /\ wt_bhash w = None /\ wt_index w = None.

Lemma to_wtx_spec t : renderable t -> exists w, to_wtx t = Ok w /\ describes t w /\ unlocated w.
Proof.
  intros [RV RS]. unfold to_wtx. set (sg := default _ _).
  assert (EV : replay_v sg (u_chain (s_tx t)) = match u_sig (s_tx t) with Some g => sg_v g | None => 0 end +
         match u_chain (s_tx t) with Some c => 2 * c + 35 | None => 27 end).
  { unfold replay_v, sg. destruct (u_sig (s_tx t)), (u_chain (s_tx t)); cbn; lia. }
  destruct (2^64 <=? _) eqn:O; [apply N.leb_le in O; lia|]. clear O.
  assert (SL : is_eth_sig sg = (length (sg_r sg) + length (sg_s sg) =? 64)%nat).
  { unfold is_eth_sig, sig_len. apply eq_true_iff_eq. rewrite !Nat.eqb_eq. lia. }
  assert (SG : forall g, u_sig (s_tx t) = Some g -> sg = g) by (intros g G; unfold sg; by rewrite G).
  assert (DE : forall r s, (forall g, u_sig (s_tx t) = Some g -> (r, s) = if (length (sg_r g) + length (sg_s g) =? 64)%nat then (inl (be_val (sg_r g)), inl (be_val (sg_s g))) else (inr (sg_r g), inr (sg_s g))) ->
    let u := u_unsigned (s_tx t) in
    let w := WTx (tx_type u) None None None (u_hash (s_tx t)) (nonce u) (s_sender t) (tx_to u) (tx_value u) (gas_limit u)
      (gas_price u) (if is_1559 u then Some MAX_PRIORITY_FEE else None) (if is_1559 u then Some (max_priority_fee u) else None)
      (enc_utx (s_tx t)) (tx_data u) (s_public t) (access_list u) (u_chain (s_tx t)) (replay_v sg (u_chain (s_tx t))) r s in
    describes t w /\ unlocated w).
  { intros r s RSE u w. split; [|done]. split; try done.
    - unfold w, u. cbn. by destruct (u_unsigned (s_tx t)) as [[]|[]|[]].
    - intros g G. split; [|by apply RSE]. unfold w. cbn. rewrite EV, G. done. }
  rewrite SL. destruct (length (sg_r sg) + length (sg_s sg) =? 64)%nat eqn:B.
  - apply Nat.eqb_eq in B.
    assert ((32 <? length (sg_r sg))%nat || (32 <? length (sg_s sg))%nat = false) as ->.
    { destruct (u_sig (s_tx t)) as [g|] eqn:G.
      - rewrite (SG g eq_refl) in *. destruct (RS g eq_refl B) as [-> ->]. done.
      - unfold sg in B. cbn in B. lia. }
    eexists. split; [done|]. apply DE. intros g G. rewrite <- (SG g G). rewrite (proj2 (Nat.eqb_eq _ _) B). done.
  - eexists. split; [done|]. apply DE. intros g G. rewrite <- (SG g G), B. done.
Qed.
Lemma place_located t w n x i : describes t w -> describes t (place_tx w n x i) /\ located (place_tx w n x i) n x i.
Proof. intros []. split; [|done]. by split. Qed.

Section Props.
  Variable keccak : bytes -> bytes.
  Notation W := (W keccak).
  Notation snap := (snap keccak).
  Notation num b := (h_number (b_header b)).
  Notation hash_of := (hash_of keccak).
  Notation exec := (exec keccak).
  Notation views := (views keccak).
  Notation names := (names keccak).
  Notation saved := (saved keccak).
  Notation hash t := (u_hash (s_tx t)).

  (** A committed block: saved with its transactions and the receipts made from its execution (engine.rs 660-690). *)
  Record committed (s : snap) (b : block) (txs : list stx) (e : exec_resp) : Prop := {
    cm_saved : saved s b;
    cm_txs : ETxs W (num b) txs ∈ sn_store _ s;
    cm_rcpts : exists rs ls, generate_receipts_and_logs keccak b (map (fun t => (hash t, s_sender t)) txs) e = Ok (rs, ls) /\
      ERcpts W (num b) rs ∈ sn_store _ s;
    cm_hashes : b_tx_hashes b = map (fun t => hash t) txs;
    cm_exec : length txs = length (er_tx_resp e);
    cm_count : N.of_nat (length txs) < 2^32;
    cm_logs : Forall (fun r => N.of_nat (length (x_logs r)) < 2^32) (er_tx_resp e) }.
  (** The pool holds no other transaction under the hash of a committed one. *)
  Definition pool_agrees (v : nat -> snap) (txs : list stx) : Prop :=
    forall i t t', t ∈ txs -> sn_pool _ (v i) (hash t) = Some t' -> t' = t.

  Lemma find_stored v j n txs t : views v -> ETxs W n txs ∈ sn_store _ (v 0%nat) -> t ∈ txs ->
    answer _ (v j) (QStored (hash t)) = Ok (Some t).
  Proof using.
    intros V E T. destruct (views_later keccak v 0 j V ltac:(lia)) as [[l L] _]. destruct V as [V _]. destruct (V j) as [WF SV].
    assert (G := C32_tx_roundtrip W _ n txs t WF SV ltac:(rewrite L; apply elem_of_app; by right) T).
    cbn [Web3Model.answer]. f_equal. exact G.
  Qed.
  Lemma find_committed {A} v j n txs t (f : option stx -> prog A) o : views v ->
    ETxs W n txs ∈ sn_store _ (v 0%nat) -> pool_agrees v txs -> t ∈ txs ->
    (forall j', (j <= j')%nat -> exec v j' (f (Some t)) = o) -> exec v j (bind (find_tx (hash t)) f) = o.
  Proof using.
    intros V E P T K. unfold find_tx. cbn [get bind Web3Model.exec].
    change (answer _ (v j) (QPool (hash t))) with (Ok (sn_pool _ (v j) (hash t))). cbn [bind].
    destruct (sn_pool _ (v j) (hash t)) as [t'|] eqn:PE.
    - rewrite (P j t t' T PE). apply K. lia.
    - cbn [bind get Web3Model.exec]. rewrite (find_stored v (S j) n txs t V E T). apply K. lia.
  Qed.
  Lemma find_receipt v j n rs r : views v -> ERcpts W n rs ∈ sn_store _ (v 0%nat) -> r ∈ rs ->
    answer _ (v j) (QReceipt (r_tx_hash r)) = Ok (Some r).
  Proof using.
    intros V E T. cbn [Web3Model.answer].
    destruct (views_later keccak v 0 j V ltac:(lia)) as [[l L] _]. destruct V as [V _]. destruct (V j) as [WF SV].
    assert (G := C32_receipt_roundtrip W _ n rs r WF SV ltac:(rewrite L; apply elem_of_app; by right) T).
    f_equal. exact G.
  Qed.
  (** The receipt of the i-th transaction. *)
  Lemma receipt_of s b txs e i t : committed s b txs e -> nth_error txs i = Some t ->
    exists rs rc x, ERcpts W (num b) rs ∈ sn_store _ s /\ rc ∈ rs /\ nth_error (er_tx_resp e) i = Some x /\
    r_tx_hash rc = hash t /\ r_sender rc = s_sender t /\ r_logs rc = x_logs x /\ r_used_gas rc = x_gas_used x /\
    r_ret rc = x_exit x /\ r_code_address rc = x_code_address x /\ r_block_hash rc = hash_of b /\ r_block_number rc = num b /\
    r_tx_index rc = N.of_nat i /\ r_logs_bloom rc = logs_bloom keccak (x_logs x) /\ r_state_root rc = h_state_root (b_header b) /\
    r_log_index rc = N.of_nat (length (concat (firstn i (map x_logs (er_tx_resp e))))).
  Proof using.
    intros [S T (rs & ls & G & R) H E C L] N.
    destruct (nth_error (er_tx_resp e) i) as [x|] eqn:X.
    2:{ apply nth_error_None in X. assert (i < length txs)%nat by (apply nth_error_Some; congruence). lia. }
    set (ps := map (fun t => (hash t, s_sender t)) txs) in *.
    assert (NP : nth_error ps i = Some (hash t, s_sender t)) by (unfold ps; by rewrite nth_error_map, N).
    assert (LP : length ps = length txs) by (unfold ps; apply map_length).
    destruct (C54_receipts_aligned keccak b ps e rs ls G ltac:(lia) ltac:(rewrite LP; lia) L) as (_ & LS & A).
    destruct (A i _ _ x NP X) as (rc & RC & H1 & H2 & H3 & H4 & H5 & H6 & H7 & H8 & H9 & H10).
    unfold generate_receipts_and_logs in G. destruct (gen_receipts keccak b 0 0 ps (er_tx_resp e)) as [o| |] eqn:GR; try done.
    injection G as -> _. apply gen_receipts_spec in GR as [_ GR].
    destruct (GR i _ _ x NP X) as (rc' & RC' & _ & _ & _ & B & _ & _ & _ & _ & _ & _ & SR & _). rewrite RC in RC'. injection RC' as <-.
    exists rs, rc, x. split; [done|]. split; [apply elem_of_list_In; by eapply nth_error_In|]. rewrite <- LS.
    split; [done|]. repeat (split; [done|]). done.
  Qed.

  (* ------------------------------------------------------------------ *)
  (** * Transactions *)

  Lemma tx_by_hash v j b txs e i t : views v -> committed (v 0%nat) b txs e -> pool_agrees v txs ->
    nth_error txs i = Some t -> renderable t ->
    exists w, exec v j (eth_getTransactionByHash (hash t)) = Ok (Some w) /\ describes t w /\ located w (num b) (hash_of b) (N.of_nat i).
  Proof using.
    intros V C P N RN. destruct (receipt_of _ _ _ _ _ _ C N) as (rs & rc & x & R & IN & _ & H1 & _ & _ & _ & _ & _ & H7 & H8 & H9 & _).
    destruct (to_wtx_spec t RN) as (w & WE & D & _).
    exists (place_tx w (num b) (hash_of b) (N.of_nat i)). split; [|by apply place_located].
    unfold eth_getTransactionByHash.
    apply (find_committed v j (num b) txs t); [done|apply C|done|apply elem_of_list_In; by eapply nth_error_In|].
    intros j' _. cbn [bind]. rewrite WE. cbn [bind]. rewrite <- H1. rewrite (exec_get keccak v j' _ _ _ (find_receipt v j' _ _ _ V R IN)).
    rewrite H7, H8, H9. done.
  Qed.
  Theorem C80_transaction : forall v b txs e i t, views v -> committed (v 0%nat) b txs e -> pool_agrees v txs ->
    nth_error txs i = Some t -> renderable t ->
    exists w, exec v 0 (eth_getTransactionByHash (hash t)) = Ok (Some w) /\ describes t w /\ located w (num b) (hash_of b) (N.of_nat i).
  Proof using. intros v b txs e i t. by apply tx_by_hash. Qed.

  Lemma block_by_number v i b : views v -> names (v 0%nat) (Some i) b -> (forall x, i <> BHash x) ->
    answer _ (v 0%nat) (QBlock (bid_number i)) = Ok (Some b).
  Proof using.
    intros V N NH. assert (S : exists n, bid_number i = n /\ selects keccak v 0 n b).
    { inversion N as [b' H|b' H Z|b' H|i' b' I H]; subst; cbn; [eexists; split; [done|by apply selects_saved]|
        eexists; split; [done|]; rewrite <- Z; by apply selects_saved|by destruct (NH (hash_of b))|].
      rewrite !elem_of_cons, elem_of_nil in I. exists None. split; [|by apply selects_latest].
      destruct I as [I|[I|[I|[]]]]; try done; by injection I as ->. }
    destruct S as (n & -> & S & _). exact S.
  Qed.
  Lemma block_by_hash v b : views v -> saved (v 0%nat) b -> answer _ (v 0%nat) (QByHash (hash_of b)) = Ok (Some b).
  Proof using.
    intros [V _] S. destruct (V 0%nat) as [WF SV]. destruct (C32_block_roundtrip W _ b WF SV S) as (_ & _ & _ & E).
    exact E.
  Qed.
  Lemma at_index v j b txs e pos : views v -> committed (v 0%nat) b txs e -> pool_agrees v txs -> Forall renderable txs ->
    match nth_error txs (N.to_nat pos) with
    | Some t => exists w, exec v j (tx_at_index (Some b) pos) = Ok (Some w) /\ describes t w /\ located w (num b) (hash_of b) pos
    | None => exec v j (tx_at_index (Some b) pos) = Ok None
    end.
  Proof using.
    intros V C P RN. cbn [tx_at_index]. rewrite (cm_hashes _ _ _ _ C), nth_error_map.
    destruct (nth_error txs (N.to_nat pos)) as [t|] eqn:N; cbn [option_map]; [|done].
    assert (R : renderable t). { rewrite Forall_forall in RN. apply RN. apply elem_of_list_In. by eapply nth_error_In. }
    destruct (tx_by_hash v j b txs e _ t V C P N R) as (w & E & D & L). exists w. rewrite N2Nat.id in L. done.
  Qed.

  (** The transaction at a position of the block, by number or by hash. *)
  Theorem C80_by_index : forall v i b txs e pos, views v -> committed (v 0%nat) b txs e -> pool_agrees v txs -> Forall renderable txs ->
    names (v 0%nat) (Some i) b -> pos < 2^64 ->
    let p := match i with BHash x => eth_getTransactionByBlockHashAndIndex x pos | _ => eth_getTransactionByBlockNumberAndIndex i pos end in
    match nth_error txs (N.to_nat pos) with
    | Some t => exists w, exec v 0 p = Ok (Some w) /\ describes t w /\ located w (num b) (hash_of b) pos
    | None => exec v 0 p = Ok None
    end.
  Proof using.
    intros v i b txs e pos V C P RN N L p.
    assert (T : (2^64 - 1 <? pos) = false) by (apply N.ltb_ge; lia).
    assert (E : exec v 0 p = exec v 1 (tx_at_index (Some b) pos)).
    { destruct i as [n|x| | |]; unfold p, eth_getTransactionByBlockHashAndIndex, eth_getTransactionByBlockNumberAndIndex; rewrite T;
        try (rewrite (exec_get keccak v 0 _ _ (Some b)); [done|by apply block_by_number]).
      inversion N as [| |b' H|? ? I ?]; subst; [|by rewrite !elem_of_cons, elem_of_nil in I; destruct I as [?|[?|[?|[]]]]].
      rewrite (exec_get keccak v 0 _ _ (Some b)); [done|by apply block_by_hash]. }
    rewrite E. by apply (at_index v 1 b txs e).
  Qed.

  (** A transaction that is only in the pool is shown without a place and has no receipt; an unknown one is not shown. *)
  Definition never_committed (v : nat -> snap) (x : bytes) : Prop :=
    forall i e, e ∈ sn_store _ (v i) -> ~ mentions_hash W e x.
  Lemma never_tx v i x : views v -> never_committed v x ->
    answer _ (v i) (QStored x) = Ok None /\ answer _ (v i) (QReceipt x) = Ok None.
  Proof using.
    intros [V _] N. destruct (V i) as [WF _]. destruct (C32_unknown W _ WF) as (_ & U & _).
    destruct (U x (N i)) as (_ & _ & E1 & E2). split; cbn [Web3Model.answer]; f_equal; [exact E1|exact E2].
  Qed.
  Theorem C80_pending : forall v t, views v -> never_committed v (hash t) -> sn_pool _ (v 0%nat) (hash t) = Some t -> renderable t ->
    (exists w, exec v 0 (eth_getTransactionByHash (hash t)) = Ok (Some w) /\ describes t w /\ unlocated w) /\
    exec v 0 (eth_getTransactionReceipt (hash t)) = Ok None.
  Proof using.
    intros v t V N P R. destruct (to_wtx_spec t R) as (w & WE & D & U). destruct (never_tx v 1 (hash t) V N) as [_ E2]. split.
    - exists w. split; [|done]. unfold eth_getTransactionByHash, find_tx. cbn [get bind Web3Model.exec Web3Model.answer]. rewrite P.
      cbn [bind ret]. rewrite WE. cbn [bind get Web3Model.exec]. rewrite E2. done.
    - unfold eth_getTransactionReceipt, find_tx. cbn [get bind Web3Model.exec Web3Model.answer]. rewrite P.
      cbn [bind ret get Web3Model.exec]. rewrite E2. done.
  Qed.
  Theorem C80_unknown : forall v x, views v -> never_committed v x -> sn_pool _ (v 0%nat) x = None ->
    exec v 0 (eth_getTransactionByHash x) = Ok None /\ exec v 0 (eth_getTransactionReceipt x) = Ok None.
  Proof using.
    intros v x V N P. destruct (never_tx v 1 x V N) as [E1 _].
    unfold eth_getTransactionByHash, eth_getTransactionReceipt, find_tx. cbn [get bind Web3Model.exec Web3Model.answer]. rewrite P.
    cbn [bind ret get Web3Model.exec]. rewrite E1. done.
  Qed.

  (* ------------------------------------------------------------------ *)
  (** * Receipts *)

  (** Shown logs: the logs of the execution, in order. *)
  Definition log_of (b : block) (i : nat) (t : stx) (k : nat) (g : log) (l : wrlog) : Prop :=
    wl_address l = lg_address g /\ wl_topics l = lg_topics g /\ wl_data l = lg_data g /\ wl_number l = num b /\ wl_bhash l = hash_of b /\
    wl_tx l = hash t /\ wl_txindex l = N.of_nat i /\ wl_index l = N.of_nat k /\ wl_removed l = false.
  Lemma wr_logs_spec r i l k g : nth_error l k = Some g ->
    nth_error (wr_logs_from r i l) k = Some (WRLog (lg_address g) (lg_topics g) (lg_data g) (r_block_number r) (r_block_hash r) (r_tx_hash r) (r_tx_index r) (i + N.of_nat k) false).
  Proof using.
    revert i k. induction l as [|g' l IH]; intros i [|k]; cbn [nth_error wr_logs_from]; try done.
    - intros [= <-]. cbn. by rewrite N.add_0_r.
    - intros H. rewrite (IH (i + 1) k H). do 2 f_equal. lia.
  Qed.
  Lemma wr_logs_length r i l : length (wr_logs_from r i l) = length l.
  Proof using. revert i. induction l; intros i; cbn; [done|by rewrite IHl]. Qed.

  Theorem C80_receipt : forall v b txs e i t x, views v -> committed (v 0%nat) b txs e -> pool_agrees v txs ->
    nth_error txs i = Some t -> nth_error (er_tx_resp e) i = Some x ->
    exists r, exec v 0 (eth_getTransactionReceipt (hash t)) = Ok (Some r) /\
      wr_tx r = hash t /\ wr_number r = num b /\ wr_bhash r = hash_of b /\ wr_index r = N.of_nat i /\
      wr_from r = s_sender t /\ wr_to r = match tx_action (u_unsigned (s_tx t)) with Call a => Some a | Create => None end /\
      wr_type r = match u_unsigned (s_tx t) with Legacy _ => 0 | Eip2930 _ => 1 | Eip1559 _ => 2 end /\
      wr_status r = (match x_exit x with XSucceed _ => 1 | _ => 0 end) /\ wr_gas r = x_gas_used x /\
      wr_contract r = option_map (skipn 12) (x_code_address x) /\ wr_root r = h_state_root (b_header b) /\
      wr_bloom r = logs_bloom keccak (x_logs x) /\
      length (wr_logs r) = length (x_logs x) /\
      forall k g, nth_error (x_logs x) k = Some g -> exists l, nth_error (wr_logs r) k = Some l /\ log_of b i t k g l.
  Proof using.
    intros v b txs e i t x V C P N X.
    destruct (receipt_of _ _ _ _ _ _ C N) as (rs & rc & x' & R & IN & X' & H1 & H2 & H3 & H4 & H5 & H6 & H7 & H8 & H9 & H10 & H11 & H12).
    rewrite X in X'. injection X' as <-.
    exists (to_wreceipt rc t). split.
    { unfold eth_getTransactionReceipt.
      apply (find_committed v 0 (num b) txs t); [done|apply C|done|apply elem_of_list_In; by eapply nth_error_In|].
      intros j' _. rewrite <- H1. rewrite (exec_get keccak v j' _ _ _ (find_receipt v j' _ _ _ V R IN)). done. }
    cbn. rewrite H1, H2, H4, H5, H6, H7, H8, H9, H10, H11. repeat (split; [done|]).
    split; [unfold succeeded; by destruct (x_exit x)|]. repeat (split; [done|]).
    rewrite H3. split; [apply wr_logs_length|]. intros k g G. eexists. split; [by apply wr_logs_spec|].
    unfold log_of. cbn. rewrite H1, H7, H8, H9. repeat (split; [done|]). done.
  Qed.

  (* ------------------------------------------------------------------ *)
  (** * Blocks *)

  (** What a shown block says about the block. *)
  Record shows (b : block) (w : wblock) : Prop := {
    sh_hash : wb_hash w = keccak (enc_hdr (b_header b));
    sh_parent : wb_parent w = h_prev_hash (b_header b);
    sh_miner : wb_miner w = h_proposer (b_header b);
    sh_state : wb_state w = h_state_root (b_header b);
    sh_txroot : wb_txroot w = h_transactions_root (b_header b);
    sh_rcroot : wb_rcroot w = h_receipts_root (b_header b);
    sh_number : wb_number w = num b;
    sh_gas_used : wb_gas_used w = h_gas_used (b_header b);
    sh_gas_limit : wb_gas_limit w = h_gas_limit (b_header b);
    sh_bloom : wb_bloom w = h_log_bloom (b_header b);
    sh_time : wb_time w = h_timestamp (b_header b);
    sh_base_fee : wb_base_fee w = h_base_fee (b_header b) }.

  Lemma rich_spec v n txs0 x : views v -> ETxs W n txs0 ∈ sn_store _ (v 0%nat) -> pool_agrees v txs0 ->
    forall txs i j (f : list (bytes + wtx) -> prog (option wblock)), (forall t, t ∈ txs -> t ∈ txs0) -> Forall renderable txs ->
    exists ws j', (j <= j')%nat /\ exec v j (bind (rich_txs n x (N.of_nat i) (map (fun t => hash t) txs)) f) = exec v j' (f (map inr ws)) /\
    length ws = length txs /\
    forall k t, nth_error txs k = Some t -> exists w, nth_error ws k = Some w /\ describes t w /\ located w n x (N.of_nat (i + k)).
  Proof using.
    intros V E P. induction txs as [|t txs IH]; intros i j f SUB RN.
    - exists [], j. split; [lia|]. split; [done|]. split; [done|]. intros [|k] t; done.
    - apply Forall_cons in RN as [R RN]. destruct (to_wtx_spec t R) as (w & WE & D & _).
      cbn [map rich_txs].
      assert (K : exists o j' w', exec v j (bind (find_tx (hash t)) (fun o : option stx => bind (match o with None => Ret _ Panic | Some t =>
         bind (Ret _ (to_wtx t)) (fun w => bind (rich_txs n x (N.of_nat i + 1) (map (fun t => hash t) txs)) (fun l => ret (inr (place_tx w n x (N.of_nat i)) :: l))) end) f)) = o /\
         (j <= j')%nat /\ o = exec v j' (f (map inr (place_tx w n x (N.of_nat i) :: w'))) /\ length w' = length txs /\
         forall k t, nth_error txs k = Some t -> exists w, nth_error w' k = Some w /\ describes t w /\ located w n x (N.of_nat (S i + k))).
      { unfold find_tx.
        assert (K : forall j1, (j <= j1)%nat -> exists j' w', exec v j1 (bind (bind (Ret _ (to_wtx t)) (fun w => bind (rich_txs n x (N.of_nat i + 1) (map (fun t => hash t) txs)) (fun l => ret (inr (place_tx w n x (N.of_nat i)) :: l)))) f) =
           exec v j' (f (map inr (place_tx w n x (N.of_nat i) :: w'))) /\ (j <= j')%nat /\ length w' = length txs /\
         forall k t, nth_error txs k = Some t -> exists w, nth_error w' k = Some w /\ describes t w /\ located w n x (N.of_nat (S i + k))).
        { intros j1 J1. rewrite WE. cbn [bind].
          destruct (IH (S i) j1 (fun l => f (inr (place_tx w n x (N.of_nat i)) :: l)) (fun t' H' => SUB t' ltac:(by right)) RN) as (ws & j' & J' & EX & LW & K).
          exists j', ws. split; [|split; [lia|done]]. etransitivity; [|exact EX].
          replace (N.of_nat i + 1) with (N.of_nat (S i)) by lia.
          generalize (rich_txs n x (N.of_nat (S i)) (map (fun t => hash t) txs)). clear. intros p. revert j1.
          induction p as [[a| |]|B q k IH]; intros j1; cbn; auto. }
        cbn [get bind Web3Model.exec].
        change (answer _ (v j) (QPool (hash t))) with (Ok (sn_pool _ (v j) (hash t))). cbn [bind].
        destruct (sn_pool _ (v j) (hash t)) as [t'|] eqn:PE.
        - rewrite (P j t t' (SUB t ltac:(by left)) PE). cbn [bind ret].
          destruct (K (S j) ltac:(lia)) as (j' & w' & EX & J & R2). exists (exec v j' (f (map inr (place_tx w n x (N.of_nat i) :: w')))), j', w'.
          split; [exact EX|]. split; [done|]. split; [done|exact R2].
        - cbn [bind get Web3Model.exec]. rewrite (find_stored v (S j) n txs0 t V E (SUB t ltac:(by left))). cbn [bind].
          destruct (K (S (S j)) ltac:(lia)) as (j' & w' & EX & J & R2). exists (exec v j' (f (map inr (place_tx w n x (N.of_nat i) :: w')))), j', w'.
          split; [exact EX|]. split; [done|]. split; [done|exact R2]. }
      destruct K as (o & j' & w' & EX & J & EO & LW & K).
      exists (place_tx w n x (N.of_nat i) :: w'), j'. split; [done|]. split.
      { rewrite <- EO, <- EX. clear. unfold find_tx. cbn [get bind Web3Model.exec Web3Model.answer].
        destruct (sn_pool _ (v j) (hash t)); [done|]. cbn [get bind Web3Model.exec Web3Model.answer]. done. }
      split; [cbn; by rewrite LW|]. intros [|k] t'; cbn [nth_error].
      + intros [= <-]. eexists. split; [done|]. rewrite Nat.add_0_r. by apply place_located.
      + intros N. destruct (K k t' N) as (w1 & N1 & D1 & L1). exists w1. split; [done|]. split; [done|].
        replace (i + S k)%nat with (S i + k)%nat by lia. done.
  Qed.

  (** A block with its transactions: all of them, in order, each located in this block. *)
  Theorem C80_block : forall v i b txs e, views v -> committed (v 0%nat) b txs e -> pool_agrees v txs -> Forall renderable txs ->
    names (v 0%nat) (Some i) b ->
    let p r := match i with BHash x => eth_getBlockByHash keccak x r | _ => eth_getBlockByNumber keccak i r end in
    (exists w, exec v 0 (p false) = Ok (Some w) /\ shows b w /\ wb_txs w = map inl (map (fun t => hash t) txs)) /\
    exists w ws, exec v 0 (p true) = Ok (Some w) /\ shows b w /\ wb_txs w = map inr ws /\ length ws = length txs /\
      forall k t, nth_error txs k = Some t -> exists x, nth_error ws k = Some x /\ describes t x /\ located x (num b) (hash_of b) (N.of_nat k).
  Proof using.
    intros v i b txs e V C P RN N p.
    assert (E : forall r, exec v 0 (p r) = exec v 1 (show_block keccak (Some b) r)).
    { intros r. destruct i as [n|x| | |]; unfold p, eth_getBlockByHash, eth_getBlockByNumber;
        try (rewrite (exec_get keccak v 0 _ _ (Some b)); [done|by apply block_by_number]).
      inversion N as [| |b' H|? ? I ?]; subst; [|by rewrite !elem_of_cons, elem_of_nil in I; destruct I as [?|[?|[?|[]]]]].
      rewrite (exec_get keccak v 0 _ _ (Some b)); [done|by apply block_by_hash]. }
    assert (SH : forall l, shows b (to_wblock keccak b l)) by (intros l; by split).
    split.
    - exists (to_wblock keccak b (map inl (b_tx_hashes b))). rewrite E. split; [done|]. split; [done|].
      cbn. by rewrite (cm_hashes _ _ _ _ C).
    - rewrite E. cbn [show_block]. rewrite (cm_hashes _ _ _ _ C).
      destruct (rich_spec v (num b) txs (hash_of b) V (cm_txs _ _ _ _ C) P txs 0 1
        (fun l => ret (Some (to_wblock keccak b l))) (fun t H => H) RN) as (ws & j' & _ & EX & LW & K).
      exists (to_wblock keccak b (map inr ws)), ws. split; [exact EX|]. split; [done|]. split; [done|]. split; [done|]. exact K.
  Qed.

  Theorem C80_count : forall v i b txs e, views v -> committed (v 0%nat) b txs e -> names (v 0%nat) (Some i) b ->
    exec v 0 (match i with BHash x => eth_getBlockTransactionCountByHash x | _ => eth_getBlockTransactionCountByNumber i end)
    = Ok (N.of_nat (length txs)).
  Proof using.
    intros v i b txs e V C N.
    assert (L : length (b_tx_hashes b) = length txs) by (rewrite (cm_hashes _ _ _ _ C); apply map_length).
    destruct i as [n|x| | |]; unfold eth_getBlockTransactionCountByHash, eth_getBlockTransactionCountByNumber;
      try (rewrite (exec_get keccak v 0 _ _ (Some b)); [by rewrite L|by apply block_by_number]).
    inversion N as [| |b' H|? ? I ?]; subst; [|by rewrite !elem_of_cons, elem_of_nil in I; destruct I as [?|[?|[?|[]]]]].
    rewrite (exec_get keccak v 0 _ _ (Some b)); [by rewrite L|by apply block_by_hash].
  Qed.
End Props.
Print Assumptions C80_transaction.
Print Assumptions C80_by_index.
Print Assumptions C80_pending.
Print Assumptions C80_unknown.
Print Assumptions C80_receipt.
Print Assumptions C80_block.
Print Assumptions C80_count.
