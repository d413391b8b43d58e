(** The Ethereum query methods of the JSON-RPC server: /repo/core/api/src/jsonrpc/impl/web3.rs with the
    adapter /repo/core/api/src/adapter.rs and the answer types /repo/core/api/src/jsonrpc/web3_types.rs.
    A handler is a program that asks the node one question at a time; the node moves on between two
    questions (new blocks, evicted caches, pool changes), so a request sees a sequence of views.
    Simplifications: request and answer are the decoded values (JSON and hexadecimal text are left out),
    an error keeps no message; the trie is a map mounted by its root (BackendModel.v and MetaModel.v model the
    trie), the EVM is an oracle, and the pool answers by its view (PoolModel.v).
    eth_getLogs, filters, subscriptions and eth_feeHistory are in ApiModel.v. *)
From Verif Require Import Bytes Rlp TxModel StorageModel BlockModel.
From stdpp Require Import base gmap list.
Local Open Scope N_scope.
Notation block := BlockModel.block (only parsing).

(** BlockId (web3_types.rs 326-333). *)
Inductive bid := BNum (n : N) | BHash (h : bytes) | BLatest | BEarliest | BPending.
(** impl From<BlockId> for Option<u64> (335-343). *)
Definition bid_number (i : bid) : option N :=
  match i with BNum n => Some n | BEarliest => Some 0 | _ => None end.

(** Constants (protocol/src/constants/configs.rs 1-30, protocol/src/types/primitive.rs 24-33). *)
Definition MAX_GAS_LIMIT : N := 30000000.
Definition MIN_TX_GAS : N := 21000.
Definition MAX_GAS_PRICE : N := 500 * 10^9.
Definition MAX_PRIORITY_FEE : N := 1337.
Definition RLP_NULL_ROOT : bytes :=
  be_fixed 32 0x56e81f171bcc55a6ff8345e692c0f86e5b48e01b996cadc001622fb5e363b421.
Definition NIL_DATA : bytes :=
  be_fixed 32 0xc5d2460186f7233c927e7db2dcc703c0e500b653ca82273b7bfad8045d85a470.
Definition ZERO32 : bytes := repeat 0 32.

(** Account (crate ethereum: derived RLP of nonce, balance, storage_root, code_hash). *)
Record acct := Acct { ac_nonce : N; ac_balance : N; ac_root : bytes; ac_code : bytes }.
Definition enc_acct (a : acct) : bytes :=
  enc_list [enc_uint (ac_nonce a); enc_uint (ac_balance a); enc_hash (ac_root a); enc_hash (ac_code a)].
Definition dec_acct (b : bytes) : option acct :=
  let? n := val_at (dec_uint 32) b 0 in
  let? v := val_at (dec_uint 32) b 1 in
  let? r := val_at (dec_hash 32) b 2 in
  let? c := val_at (dec_hash 32) b 3 in
  Some (Acct n v r c).

(** is_system_contract_address_format (core/executor/src/system_contract/mod.rs 321-323). *)
Definition is_system_format (a : bytes) : bool := beqb (firstn 19 a) (repeat 255 19).

(* ------------------------------------------------------------------ *)
(** * Answers *)

(** Web3Transaction (web3_types.rs 43-81).  [standard_v] is always absent. *)
Record wtx := WTx { wt_type : N; wt_number : option N; wt_bhash : option bytes; wt_index : option N;
  wt_hash : bytes; wt_nonce : N; wt_from : bytes; wt_to : option bytes; wt_value : N; wt_gas : N; wt_price : N;
  wt_max_fee : option N; wt_max_prio : option N; wt_raw : bytes; wt_input : bytes; wt_public : option bytes;
  wt_access : list access_item; wt_chain : option N; wt_v : N; wt_r : N + bytes; wt_s : N + bytes }.

(** is_eip1559 (types/transaction.rs 66-68). *)
Definition is_1559 (u : unsigned) : bool := match u with Eip1559 _ => true | _ => false end.

(** impl From<SignedTransaction> for Web3Transaction (83-135).  An absent signature is the default one
    (empty r and s, v = 0); the chain replay v is u64 arithmetic; U256::from(&r[..]) panics beyond 32 bytes. *)
Definition to_wtx (t : stx) : outcome wtx :=
  let x := s_tx t in let u := u_unsigned x in
  let sg := default (SigC [] [] 0) (u_sig x) in
  if 2^64 <=? replay_v sg (u_chain x) then Panic
  else
    let mk r s := WTx (tx_type u) None None None (u_hash x) (nonce u) (s_sender t) (tx_to u) (tx_value u) (gas_limit u)
      (gas_price u) (if is_1559 u then Some MAX_PRIORITY_FEE else None) (if is_1559 u then Some (max_priority_fee u) else None)
      (enc_utx x) (tx_data u) (s_public t) (access_list u) (u_chain x) (replay_v sg (u_chain x)) r s in
    if is_eth_sig sg then
      if (32 <? length (sg_r sg))%nat || (32 <? length (sg_s sg))%nat then Panic
      else Ok (mk (inl (be_val (sg_r sg))) (inl (be_val (sg_s sg))))
    else Ok (mk (inr (sg_r sg)) (inr (sg_s sg))).

(** add_block_number, add_block_hash, add_tx_index (138-151), update_with_receipt (153-157). *)
Definition place_tx (w : wtx) (n : N) (x : bytes) (i : N) : wtx :=
  WTx (wt_type w) (Some n) (Some x) (Some i) (wt_hash w) (wt_nonce w) (wt_from w) (wt_to w) (wt_value w) (wt_gas w) (wt_price w)
    (wt_max_fee w) (wt_max_prio w) (wt_raw w) (wt_input w) (wt_public w) (wt_access w) (wt_chain w) (wt_v w) (wt_r w) (wt_s w).

(** Web3ReceiptLog, Web3Receipt (160-194) and Web3Receipt::new (196-235). *)
Record wrlog := WRLog { wl_address : bytes; wl_topics : list bytes; wl_data : bytes; wl_number : N; wl_bhash : bytes;
  wl_tx : bytes; wl_txindex : N; wl_index : N; wl_removed : bool }.
Record wreceipt := WReceipt { wr_number : N; wr_bhash : bytes; wr_contract : option bytes; wr_cumulative : N; wr_price : N;
  wr_from : bytes; wr_gas : N; wr_logs : list wrlog; wr_bloom : bytes; wr_root : bytes; wr_status : N; wr_to : option bytes;
  wr_tx : bytes; wr_index : N; wr_type : N }.
(** status (types/receipt.rs 44-49), is_succeed (crate evm). *)
Definition succeeded (x : exit_reason) : bool := match x with XSucceed _ => true | _ => false end.
Fixpoint wr_logs_from (r : receipt) (i : N) (l : list log) : list wrlog :=
  match l with
  | [] => []
  | g :: l' => WRLog (lg_address g) (lg_topics g) (lg_data g) (r_block_number r) (r_block_hash r) (r_tx_hash r) (r_tx_index r) i false
               :: wr_logs_from r (i + 1) l'
  end.
Definition to_wreceipt (r : receipt) (t : stx) : wreceipt :=
  WReceipt (r_block_number r) (r_block_hash r) (option_map low20 (r_code_address r)) (r_used_gas r) (r_used_gas r)
    (r_sender r) (r_used_gas r) (wr_logs_from r 0 (r_logs r)) (r_logs_bloom r) (r_state_root r)
    (if succeeded (r_ret r) then 1 else 0) (tx_to (u_unsigned (s_tx t))) (r_tx_hash r) (r_tx_index r) (tx_type (u_unsigned (s_tx t))).

(** Web3Block (237-266) and its conversion (268-300).  Left out: the constant fields sha3Uncles, difficulty,
    sealFields, uncles, mixHash, nonce, and [author], which equals [miner]. *)
Record wblock := WBlock { wb_hash : bytes; wb_parent : bytes; wb_miner : bytes; wb_state : bytes; wb_txroot : bytes;
  wb_rcroot : bytes; wb_number : N; wb_gas_used : N; wb_gas_limit : N; wb_extra : bytes; wb_bloom : bytes; wb_time : N;
  wb_total : N; wb_base_fee : N; wb_txs : list (bytes + wtx); wb_size : N }.

(** EthAccountProof, EthStorageProof (types/executor.rs 96-115). *)
Record wproof := WProof { wp_address : bytes; wp_balance : N; wp_code : bytes; wp_nonce : N; wp_root : bytes;
  wp_proof : list bytes; wp_storage : list (N * N * list bytes) }.

(** Web3CallRequest (309-327): the fields that are read. *)
Record creq := CReq { cq_from : option bytes; cq_to : option bytes; cq_price : option N; cq_max_fee : option N;
  cq_gas : option N; cq_value : option N; cq_data : option bytes; cq_chain : option N }.

(** What the EVM is run with: ExecutorContext (types/executor.rs 52-78) and the arguments of
    AxonExecutor::call (core/executor/src/lib.rs 64-73). *)
Record xcall := XCall { k_number : N; k_coinbase : bytes; k_time : N; k_chain : N; k_origin : bytes; k_price : N;
  k_block_gas : N; k_base_fee : N; k_extra : list extra_data;
  k_gas : N; k_from : option bytes; k_to : option bytes; k_value : N; k_data : bytes }.

Section Web3.
  Variable keccak : bytes -> bytes.
  Variable recover : bytes -> bytes -> option bytes.
  (** The EVM on a state root: exit reason, returned bytes and used gas. *)
  Variable evm : bytes -> xcall -> exit_reason * bytes * N.
  (** Merkle proof of a key in the trie of a root (MPTTrie::get_proof). *)
  Variable mpt_proof : bytes -> bytes -> list bytes.

  (** Header::hash, Block::hash (types/block.rs 300-302, 231-233). *)
  Definition hash_of (b : block) : bytes := keccak (enc_hdr (b_header b)).
  (** The storage of StorageModel.v at the concrete types. *)
  Definition W : iface :=
    Iface block header stx receipt proof b_header h_number hash_of (fun t => u_hash (s_tx t)) r_tx_hash.

  (* ------------------------------------------------------------------ *)
  (** * The node as the handlers see it *)

  (** One view: the history of the storage, the tries, the pool. *)
  Record snap := Snap { sn_store : list (sevent W);
    sn_trie : bytes -> option (bytes -> option bytes);
    sn_pool : bytes -> option stx; sn_pending : bytes -> N * option N; sn_admit : stx -> outcome unit }.

  (** The questions (adapter.rs 84-200); [QTrie] mounts a trie (MPTTrie::from_root). *)
  Inductive ask : Type -> Type :=
  | QBlock (n : option N) : ask (option block)
  | QByHash (x : bytes) : ask (option block)
  | QHeader (n : option N) : ask (option header)
  | QNumber (x : bytes) : ask (option N)
  | QPool (x : bytes) : ask (option stx)
  | QStored (x : bytes) : ask (option stx)
  | QReceipt (x : bytes) : ask (option receipt)
  | QCode (x : bytes) : ask (option bytes)
  | QTrie (r : bytes) : ask (bytes -> option bytes)
  | QPending (a : bytes) : ask (N * option N)
  | QAdmit (t : stx) : ask unit.
  Definition store (s : snap) : sstate W := srun W (sn_store s).
  (** get_block_by_number (93-102), get_block_by_hash (104-106), get_block_header_by_number (108-121),
      get_block_number_by_hash (123-129), get_receipt_by_tx_hash (131-137), get_code_by_hash (239-241),
      get_pending_tx_count (187-196), insert_signed_txs (81-87); the trie backend fails for an unknown root. *)
  Definition answer (s : snap) {A} (q : ask A) : outcome A :=
    match q with
    | QBlock (Some n) => (get_block W (store s) n).2
    | QBlock None => match get_latest_block W (store s) with Ok b => Ok (Some b) | Err => Err | Panic => Panic end
    | QByHash x => (get_block_by_hash W (store s) x).2
    | QHeader (Some n) => (get_block_header W (store s) n).2
    | QHeader None => match get_latest_block_header W (store s) with Ok h => Ok (Some h) | Err => Err | Panic => Panic end
    | QNumber x => Ok (get_number W (store s) x).2
    | QPool x => Ok (sn_pool s x)
    | QStored x => Ok (get_tx W (store s) x).2
    | QReceipt x => Ok (get_receipt W (store s) x).2
    | QCode x => Ok (get_code_by_hash W (store s) x).2
    | QTrie r => match sn_trie s r with Some m => Ok m | None => Err end
    | QPending a => Ok (sn_pending s a)
    | QAdmit t => sn_admit s t
    end.

  (** Handler programs.  [Ask] hands the whole outcome to the continuation. *)
  Inductive prog (A : Type) : Type :=
  | Ret (o : outcome A)
  | Ask {B} (q : ask B) (k : outcome B -> prog A).
  Arguments Ret {A} o. Arguments Ask {A B} q k.
  (** The n-th question is answered by the n-th view. *)
  Fixpoint exec {A} (v : nat -> snap) (i : nat) (p : prog A) : outcome A :=
    match p with
    | Ret o => o
    | Ask q k => exec v (S i) (k (answer (v i) q))
    end.
  Fixpoint bind {A B} (p : prog A) (f : A -> prog B) : prog B :=
    match p with
    | Ret (Ok a) => f a | Ret Err => Ret Err | Ret Panic => Ret Panic
    | Ask q k => Ask q (fun o => bind (k o) f)
    end.
  (** [?]: an error ends the handler. *)
  Definition get {A} (q : ask A) : prog A := Ask q Ret.
  (** [.map_or(default, f)] and [.unwrap_or_default()]: an error becomes the default, a panic stays one. *)
  Fixpoint or_else {A} (p : prog A) (d : A) : prog A :=
    match p with
    | Ret Err => Ret (Ok d) | Ret o => Ret o
    | Ask q k => Ask q (fun o => or_else (k o) d)
    end.
  Notation "'do' x <- p ; q" := (bind p (fun x => q)) (at level 200, x pattern, p at level 100, q at level 200).
  Definition ret {A} (a : A) : prog A := Ret (Ok a).

  (* ------------------------------------------------------------------ *)
  (** * Adapter *)

  (** evm_backend (46-61) and get_account (169-185): the block, its state trie, the account. *)
  Definition get_account (a : bytes) (n : option N) : prog acct :=
    do ob <- get (QBlock n);
    match ob with
    | None => Ret Err
    | Some b =>
        do m <- get (QTrie (h_state_root (b_header b)));
        match m a with
        | Some raw => Ret (of_option (dec_acct raw))
        | None => ret (Acct 0 0 RLP_NULL_ROOT NIL_DATA)
        end
    end.
  (** get_transaction_by_hash (147-157): the pool first. *)
  Definition find_tx (x : bytes) : prog (option stx) :=
    do o <- get (QPool x);
    match o with Some t => ret (Some t) | None => get (QStored x) end.
  (** get_storage_at (247-271): both [unwrap]s panic. *)
  Definition storage_at (a : bytes) (pos : N) (root : bytes) : prog bytes :=
    do m <- get (QTrie root);
    match m a with
    | None => Ret Err
    | Some raw =>
        match dec_acct raw with
        | None => Ret Panic
        | Some ac =>
            do t <- get (QTrie (ac_root ac));
            match t (be_fixed 32 pos) with
            | None => ret ZERO32
            | Some v => match dec_uint 32 v with Some n => ret (be_fixed 32 n) | None => Ret Panic end
            end
        end
    end.
  (** get_proof (273-331). *)
  Fixpoint slot_proofs (root : bytes) (t : bytes -> option bytes) (ps : list N) : outcome (list (N * N * list bytes)) :=
    match ps with
    | [] => Ok []
    | p :: r =>
        let pr := mpt_proof root (be_fixed 32 p) in
        match (match t (be_fixed 32 p) with None => Some 0 | Some v => dec_uint 32 v end) with
        | None => Panic
        | Some n => match slot_proofs root t r with Ok l => Ok ((p, n, pr) :: l) | Err => Err | Panic => Panic end
        end
    end.
  Definition account_proof (a : bytes) (ps : list N) (root : bytes) : prog wproof :=
    do m <- get (QTrie root);
    let pr := mpt_proof root a in
    match m a with
    | Some raw =>
        match dec_acct raw with
        | None => Ret Panic
        | Some ac =>
            do t <- get (QTrie (ac_root ac));
            match slot_proofs (ac_root ac) t ps with
            | Ok l => ret (WProof a (ac_balance ac) (ac_code ac) (ac_nonce ac) (ac_root ac) pr l)
            | Err => Ret Err | Panic => Ret Panic
            end
        end
    | None => ret (WProof a 0 ZERO32 0 ZERO32 pr (map (fun p => (p, 0, [])) ps))
    end.

  (* ------------------------------------------------------------------ *)
  (** * Handlers (web3.rs) *)

  (** get_block_number_by_id (44-58). *)
  Definition number_by_id (i : option bid) : prog (option N) :=
    match i with
    | Some (BHash x) => get (QNumber x)
    | _ => ret (bid_number (default BLatest i))
    end.

  (** send_raw_transaction (195-237): the wait at the end is left out. *)
  Definition eth_sendRawTransaction (cap : N) (raw : bytes) : prog bytes :=
    match dec_utx keccak raw with
    | Err => Ret Err | Panic => Ret Panic
    | Ok u =>
        if gas_price (u_unsigned u) =? 0 then Ret Err
        else if MAX_GAS_PRICE <? gas_price (u_unsigned u) then Ret Err
        else if gas_limit (u_unsigned u) <? MIN_TX_GAS then Ret Err
        else if cap <? gas_limit (u_unsigned u) then Ret Err
        else if negb (check_hash keccak u) then Ret Err
        else match from_unverified keccak recover u with
             | Err => Ret Err | Panic => Ret Panic
             | Ok t => do _ <- get (QAdmit t); ret (u_hash (s_tx t))
             end
    end.

  (** get_transaction_by_hash (239-264). *)
  Definition eth_getTransactionByHash (x : bytes) : prog (option wtx) :=
    do o <- find_tx x;
    match o with
    | None => ret None
    | Some t =>
        do w <- Ret (to_wtx t);
        do r <- get (QReceipt x);
        match r with
        | Some r => ret (Some (place_tx w (r_block_number r) (r_block_hash r) (r_tx_index r)))
        | None => ret (Some w)
        end
    end.

  (** The loop over the transactions of a rich block (283-300, 331-348); [unwrap] panics. *)
  Fixpoint rich_txs (n : N) (x : bytes) (i : N) (hs : list bytes) : prog (list (bytes + wtx)) :=
    match hs with
    | [] => ret []
    | h :: r =>
        do o <- find_tx h;
        match o with
        | None => Ret Panic
        | Some t =>
            do w <- Ret (to_wtx t);
            do l <- rich_txs n x (i + 1) r;
            ret (inr (place_tx w n x i) :: l)
        end
    end.
  Definition to_wblock (b : block) (txs : list (bytes + wtx)) : wblock :=
    let h := b_header b in
    WBlock (hash_of b) (h_prev_hash h) (h_proposer h) (h_state_root h) (h_transactions_root h) (h_receipts_root h)
      (h_number h) (h_gas_used h) (h_gas_limit h) (enc_list (map enc_extra (h_extra_data h))) (h_log_bloom h) (h_timestamp h)
      (h_number h) (h_base_fee h) txs (len (enc_hdr h)).
  (** get_block_by_number, get_block_by_hash (266-360). *)
  Definition show_block (o : option block) (rich : bool) : prog (option wblock) :=
    match o with
    | None => ret None
    | Some b =>
        if rich then
          do l <- rich_txs (h_number (b_header b)) (hash_of b) 0 (b_tx_hashes b); ret (Some (to_wblock b l))
        else ret (Some (to_wblock b (map inl (b_tx_hashes b))))
    end.
  Definition eth_getBlockByNumber (i : bid) (rich : bool) : prog (option wblock) :=
    do o <- get (QBlock (bid_number i)); show_block o rich.
  Definition eth_getBlockByHash (x : bytes) (rich : bool) : prog (option wblock) :=
    do o <- get (QByHash x); show_block o rich.

  (** get_transaction_count (362-402): the U256 sum panics on overflow. *)
  Definition eth_getTransactionCount (a : bytes) (i : option bid) : prog N :=
    match default BLatest i with
    | BPending =>
        do pn <- get (QPending a);
        or_else (do ac <- get_account a (snd pn);
                 if ac_nonce ac + fst pn <? 2^256 then ret (ac_nonce ac + fst pn) else Ret Panic) 0
    | BHash x =>
        do n <- get (QNumber x); or_else (do ac <- get_account a n; ret (ac_nonce ac)) 0
    | b => or_else (do ac <- get_account a (bid_number b); ret (ac_nonce ac)) 0
    end.

  (** block_number (404-412). *)
  Definition eth_blockNumber : prog N :=
    do o <- get (QHeader None);
    match o with Some h => ret (h_number h) | None => Ret Err end.

  (** get_balance (414-423). *)
  Definition eth_getBalance (a : bytes) (i : option bid) : prog N :=
    do n <- number_by_id i;
    or_else (do ac <- get_account a n; ret (ac_balance ac)) 0.

  (** mock_header_by_call_req (1097-1130), Proposal::new_without_state_root (types/block.rs 112-130),
      the context (types/executor.rs 64-78) and evm_call (adapter.rs 198-237). *)
  Definition call_of (h : header) (q : creq) : xcall :=
    XCall (h_number h) (h_proposer h) (h_timestamp h) (default (h_chain_id h) (cq_chain q))
      (default (repeat 0 20) (cq_from q)) (default 1 (cq_price q)) (default (h_gas_limit h) (cq_gas q))
      (default (h_base_fee h) (cq_max_fee q)) []
      (default MAX_GAS_LIMIT (cq_gas q)) (cq_from q) (cq_to q) (default 0 (cq_value q)) (default [] (cq_data q)).
  (** AxonExecutor::call (lib.rs 64-125): the estimate adds a quarter; the u64 sum panics on overflow. *)
  Definition executor_call (root : bytes) (k : xcall) (estimate : bool) : outcome (exit_reason * bytes * N) :=
    let '(x, r, g) := evm root k in
    if estimate then if g / 4 + g <? 2^64 then Ok (x, r, g / 4 + g) else Panic else Ok (x, r, g).
  (** call_evm (60-91). *)
  Definition call_evm (q : creq) (n : option N) (estimate : bool) : prog (exit_reason * bytes * N) :=
    match cq_from q, cq_to q with
    | None, None => Ret Err
    | _, _ =>
        do o <- get (QHeader n);
        match o with
        | None => Ret Err
        | Some h =>
            do _ <- get (QTrie (h_state_root h));
            Ret (executor_call (h_state_root h) (call_of h q) estimate)
        end
    end.
  (** decode_revert_msg (core/executor/src/utils.rs 51-73), run when the error is rendered
      (error.rs 52-53, 133-135): the length word is cast to usize and added to 68, both checked. *)
  Definition decode_revert (ret : bytes) : outcome bytes :=
    if (length ret <? 68)%nat then Ok ret
    else
      let l := be_val (firstn 32 (skipn 36 ret)) in
      if 2^64 <=? l then Panic
      else if 2^64 <=? 68 + l then Panic
      else if len ret <? 68 + l then Ok ret
      else Ok (firstn (N.to_nat l) (skipn 68 ret)).
  (** The error answer: code, message, data. *)
  Definition evm_error {A} (ret : bytes) : outcome A :=
    match decode_revert ret with Ok _ => Err | Err => Err | Panic => Panic end.

  (** call (425-462). *)
  Definition eth_call (q : creq) (i : option bid) : prog bytes :=
    if MAX_GAS_LIMIT <? default 0 (cq_gas q) then Ret Err
    else if MAX_GAS_PRICE <? default 0 (cq_price q) then Ret Err
    else if match cq_to q with Some a => is_system_format a | None => false end then Ret Err
    else
      do n <- number_by_id i;
      do r <- call_evm q n false;
      let '(x, d, _) := r in
      if succeeded x then ret d else Ret (evm_error d).

  (** estimate_gas (464-507): only an explicit number selects a block. *)
  Definition eth_estimateGas (q : creq) (i : option bid) : prog N :=
    if match cq_gas q with Some g => g <? MIN_TX_GAS | None => false end then Ret Err
    else if MAX_GAS_LIMIT <? default 0 (cq_gas q) then Ret Err
    else if MAX_GAS_PRICE <? default 0 (cq_price q) then Ret Err
    else if match cq_to q with Some a => is_system_format a | None => false end then Ret Err
    else
      do r <- call_evm q (match i with Some (BNum n) => Some n | _ => None end) true;
      let '(x, d, g) := r in
      if succeeded x then ret g else Ret (evm_error d).

  (** get_code (509-530). *)
  Definition eth_getCode (a : bytes) (i : option bid) : prog bytes :=
    do n <- number_by_id i;
    do ac <- get_account a n;
    do c <- get (QCode (ac_code ac));
    ret (default [] c).

  (** get_block_transaction_count_by_number (532-544), ..._by_hash (890-899). *)
  Definition eth_getBlockTransactionCountByNumber (i : bid) : prog N :=
    do o <- get (QBlock (bid_number i));
    ret (match o with Some b => N.of_nat (length (b_tx_hashes b)) | None => 0 end).
  Definition eth_getBlockTransactionCountByHash (x : bytes) : prog N :=
    do o <- get (QByHash x);
    ret (match o with Some b => N.of_nat (length (b_tx_hashes b)) | None => 0 end).

  (** get_transaction_receipt (546-568). *)
  Definition eth_getTransactionReceipt (x : bytes) : prog (option wreceipt) :=
    do o <- find_tx x;
    match o with
    | None => ret None
    | Some t =>
        do r <- get (QReceipt x);
        ret (option_map (fun r => to_wreceipt r t) r)
    end.

  (** get_transaction_by_block_hash_and_index, ..._number_and_index (901-963):
      the rejected position is rendered with [as_u64], which panics for it. *)
  Definition tx_at_index (o : option block) (pos : N) : prog (option wtx) :=
    match o with
    | Some b => match nth_error (b_tx_hashes b) (N.to_nat pos) with
                | Some h => eth_getTransactionByHash h | None => ret None end
    | None => ret None
    end.
  Definition eth_getTransactionByBlockHashAndIndex (x : bytes) (pos : N) : prog (option wtx) :=
    if 2^64 - 1 <? pos then Ret Panic else do o <- get (QByHash x); tx_at_index o pos.
  Definition eth_getTransactionByBlockNumberAndIndex (i : bid) (pos : N) : prog (option wtx) :=
    if 2^64 - 1 <? pos then Ret Panic else do o <- get (QBlock (bid_number i)); tx_at_index o pos.

  (** get_storage_at (965-990). *)
  Definition eth_getStorageAt (a : bytes) (pos : N) (i : option bid) : prog bytes :=
    if is_system_format a then Ret Err
    else
      do n <- number_by_id i;
      do o <- get (QHeader n);
      match o with
      | None => Ret Err
      | Some h => or_else (storage_at a pos (h_state_root h)) ZERO32
      end.

  (** get_proof (1030-1053). *)
  Definition eth_getProof (a : bytes) (ps : list N) (i : bid) : prog wproof :=
    if is_system_format a then Ret Err
    else
      do n <- number_by_id (Some i);
      do o <- get (QHeader n);
      match o with None => Ret Err | Some h => account_proof a ps (h_state_root h) end.
End Web3.
