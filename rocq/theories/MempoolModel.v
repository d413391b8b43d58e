(** The transaction pool service: /repo/core/mempool/src/lib.rs, and the checks of its adapter,
    /repo/core/mempool/src/adapter/mod.rs.

    Simplifications.
    - The chain state read by the adapter is the record [env]; errors of the database are not modelled.
    - Signature verification (adapter/mod.rs:291-321, secp256k1 or CKB-VM) is the oracle [sig_ok].
    - Gossip, peer scores, metrics and logs have no effect here; a failing broadcast (lib.rs:121-129) is not modelled.
    - The answer of the remote peer is an arbitrary list of transactions, [None] when the call fails. *)
From Verif Require Import Bytes Rlp TxModel PoolModel.

Record env := Env {
  e_chain : N;                         (* DefaultMemPoolAdapter.chain_id *)
  e_max_size : N;                      (* max_tx_size *)
  e_account : bytes -> N * N;          (* nonce and balance of an address in the latest state *)
  e_validator : bytes -> bool;         (* MetadataHandle::is_validator(latest block + 1, address) *)
  e_stored : N -> option stx }.        (* transactions in the database, by hash *)

(** DefaultMemPoolAdapter.addr_nonce. *)
Notation nonce_cache := (gmap bytes (N * N)).

Definition hash_of (t : stx) : N := be_val (u_hash (s_tx t)).
Definition unsigned_of (t : stx) : unsigned := u_unsigned (s_tx t).
(** What pool.rs and tx_wrapper.rs look at. *)
Definition ptx_of (t : stx) : ptx :=
  Ptx (hash_of t) (be_val (s_sender t)) (nonce (unsigned_of t)) (gas_price (unsigned_of t))
    (gas_limit (unsigned_of t)) (tx_data (unsigned_of t)).

(** protocol/src/constants/configs.rs:6-11, 21. *)
Definition MAX_GAS_LIMIT : N := 30000000.
Definition MAX_GAS_PRICE : N := 500 * 1000000000.
Definition MIN_TRANSACTION_GAS_LIMIT : N := 21000.

(** core/executor/src/system_contract/mod.rs:44-60 (addresses 0xff..ff00 to 0xff..ff03). *)
Definition SYSTEM_PREFIX : bytes := repeat 255 19.
Definition system_contract_address (i : N) : bytes := SYSTEM_PREFIX ++ [i].
Definition SYSTEM_SET : list bytes := map system_contract_address [0; 1; 2; 3].
(** is_call_system_script, mod.rs:325-344. *)
Definition is_call_system_script (a : action) : outcome bool :=
  match a with
  | Create => Ok false
  | Call addr =>
      if beqb (firstn 19 addr) SYSTEM_PREFIX then
        if existsb (beqb addr) SYSTEM_SET then Ok true else Err
      else Ok false
  end.

(** verify_chain_id (200-217). *)
Definition verify_chain_id (e : env) (t : stx) : bool :=
  match u_chain (s_tx t) with Some c => c =? e_chain e | None => true end.
(** verify_tx_size (219-241); [UnverifiedTransaction::encode] is the raw encoding. *)
Definition verify_tx_size (e : env) (t : stx) : bool := negb (e_max_size e <? len (enc_utx (s_tx t))).
(** verify_gas_price (243-250). *)
Definition verify_gas_price (t : stx) : bool :=
  let p := gas_price (unsigned_of t) in negb ((p =? 0) || (MAX_GAS_PRICE <=? p)).
(** verify_gas_limit (252-289). *)
Definition verify_gas_limit (t : stx) : bool :=
  let g := gas_limit (unsigned_of t) in
  negb (g <? MIN_TRANSACTION_GAS_LIMIT) && negb (MAX_GAS_LIMIT <? g).

(** get_full_txs (lib.rs:242-281): hits of the pool first, then those of the database. *)
Definition storage_lookup (stored : N -> option stx) (hashes : list N) : list (option ptx) :=
  map (fun h => option_map ptx_of (stored h)) hashes.
Definition in_pool (s : pool) (h : N) : bool := match pool_get s h with Some _ => true | None => false end.
(** The database lookup is adapter/mod.rs:467-488; it answers each hash at its position. *)
Definition get_full_txs (stored : N -> option stx) (s : pool) (hashes : list N) : outcome (list ptx) :=
  let hits := omap (pool_get s) hashes in
  let missing := filter (fun h => in_pool s h = false) hashes in
  let full := if bool_decide (missing = []) then hits
              else hits ++ omap id (storage_lookup stored missing) in
  if negb (length full =? length hashes)%nat then Err else Ok full.

(** check_dup_order_hashes (lib.rs:344-356). *)
Fixpoint check_dup (seen : gset N) (l : list N) : bool :=
  match l with
  | [] => true
  | h :: r => if bool_decide (h ∈ seen) then false else check_dup ({[h]} ∪ seen) r
  end.

Section Mempool.
Variable sig_ok : stx -> bool.
Variable capacity : N.

(** check_transaction (441-457). *)
Definition check_transaction (e : env) (t : stx) : outcome unit :=
  match u_sig (s_tx t) with
  | None => Err
  | Some _ =>
      match s_public t with
      | None => Err
      | Some _ =>
          if negb (verify_chain_id e t) then Err
          else if negb (verify_tx_size e t) then Err
          else if negb (verify_gas_price t) then Err
          else if negb (verify_gas_limit t) then Err
          else if negb (sig_ok t) then Err
          else Ok tt
      end
  end.

(** check_storage_exist (459-465). *)
Definition check_storage_exist (e : env) (h : N) : outcome unit :=
  match e_stored e h with Some _ => Err | None => Ok tt end.

(** check_authorization (387-439) with check_system_script_tx_authorization (181-199): the nonce difference and the
    new cache.  [account.nonce.as_u64()] in the error value panics above 2^64. *)
Definition check_authorization (e : env) (c : nonce_cache) (t : stx) : outcome N * nonce_cache :=
  let u := unsigned_of t in
  match is_call_system_script (tx_action u) with
  | Ok true => (if e_validator e (s_sender t) then Ok 0 else Err, c)
  | Ok false =>
      match c !! s_sender t with
      | Some (n, b) =>
          (if nonce u <? n then Err
           else if b <? may_cost u then Err
           else Ok (nonce u - n), c)
      | None =>
          let '(an, ab) := e_account e (s_sender t) in
          let n := an mod 2^64 in
          (if nonce u <? n then (if an <? 2^64 then Err else Panic)
           else if ab <? may_cost u then Err
           else Ok (nonce u - n), <[s_sender t := (n, ab)]> c)
      end
  | Err => (Err, c)
  | Panic => (Panic, c)
  end.

(** The three checks on a transaction, as in insert_tx and verify_tx_in_parallel. *)
Definition check_all (e : env) (c : nonce_cache) (t : stx) : outcome N * nonce_cache :=
  match check_authorization e c t with
  | (Ok d, c1) =>
      match check_transaction e t with
      | Ok _ => match check_storage_exist e (hash_of t) with
                | Ok _ => (Ok d, c1)
                | Err => (Err, c1)
                | Panic => (Panic, c1)
                end
      | Err => (Err, c1)
      | Panic => (Panic, c1)
      end
  | r => r
  end.

Definition put (s : pool) (t : stx) (sys limited : bool) (d : N) : outcome pool :=
  if sys then Ok (pool_insert_sys s (ptx_of t)) else pool_insert capacity s (ptx_of t) limited d.

(** MemPool::insert (188-197) with insert_tx (95-133). *)
Definition mempool_insert (e : env) (c : nonce_cache) (s : pool) (t : stx) : outcome pool * nonce_cache :=
  match is_call_system_script (tx_action (unsigned_of t)) with
  | Ok sys =>
      if reach_limit capacity s then (Err, c)
      else if pool_contains s (hash_of t) then (Ok s, c)
      else match check_all e c t with
           | (Ok d, c1) => (put s t sys true d, c1)
           | (Err, c1) => (Err, c1)
           | (Panic, c1) => (Panic, c1)
           end
  | Err => (Err, c)
  | Panic => (Panic, c)
  end.

(** verify_tx_in_parallel (135-176): one task per transaction.  The tasks share only the nonce cache; they are run here in
    order of the list.  A panicking task becomes an error of the whole batch. *)
Fixpoint verify_batch (e : env) (c : nonce_cache) (l : list stx) : outcome (list N) * nonce_cache :=
  match l with
  | [] => (Ok [], c)
  | t :: r =>
      let '(o, c1) := check_all e c t in
      let '(os, c2) := verify_batch e c1 r in
      (match o, os with Ok d, Ok ds => Ok (d :: ds) | _, _ => Err end, c2)
  end.

(** lib.rs:310-318. *)
Fixpoint insert_batch (s : pool) (l : list (stx * N)) : outcome pool :=
  match l with
  | [] => Ok s
  | (t, d) :: r =>
      match is_call_system_script (tx_action (unsigned_of t)) with
      | Ok sys => match put s t sys false d with
                  | Ok s1 => insert_batch s1 r
                  | o => o
                  end
      | Err => Err
      | Panic => Panic
      end
  end.

(** show_unknown_txs (75-86). *)
Definition unknown (s : pool) (hashes : list N) : list N :=
  filter (fun h => pool_contains s h = false) hashes.

(** ensure_order_txs (283-324).  An error in the middle of the batch leaves the earlier insertions in place, which this
    result type does not show. *)
Definition ensure_order_txs (e : env) (c : nonce_cache) (s : pool) (order : list N) (answer : option (list stx))
    : outcome pool * nonce_cache :=
  if negb (check_dup ∅ order) then (Err, c)
  else if bool_decide (unknown s order = []) then (Ok s, c)
  else match answer with
       | None => (Err, c)
       | Some txs =>
           if negb (length txs =? length (unknown s order))%nat then (Err, c)
           else match verify_batch e c txs with
                | (Ok ds, c1) => (insert_batch s (zip txs ds), c1)
                | (Err, c1) => (Err, c1)
                | (Panic, c1) => (Panic, c1)
                end
       end.

(** MemPool::flush (225-238): the cache is cleared, then the pool is flushed.  set_args (490-500) clears it too. *)
Definition mempool_flush (timeout : N) (c : nonce_cache) (s : pool) (hashes : list N) (number : N) : outcome pool * nonce_cache :=
  (pool_flush timeout s hashes number, ∅).
End Mempool.

(** Web3RpcImpl::send_raw_transaction, /repo/core/api/src/jsonrpc/impl/web3.rs:197-238: the checks before the transaction
    is handed to [MemPool::insert], the call itself and the returned hash.  [max_gas_cap] comes from the
    configuration.  The sleep is left out. *)
Definition rpc_precheck (max_gas_cap : N) (t : utx) : bool :=
  let u := u_unsigned t in
  negb (gas_price u =? 0) && negb (MAX_GAS_PRICE <? gas_price u) &&
  negb (gas_limit u <? MIN_TRANSACTION_GAS_LIMIT) && negb (max_gas_cap <? gas_limit u).
Definition send_raw_transaction (keccak : bytes -> bytes) (recover : bytes -> bytes -> option bytes)
    (sig_ok : stx -> bool) (capacity max_gas_cap : N) (e : env) (c : nonce_cache) (s : pool) (raw : bytes)
    : outcome (bytes * pool) * nonce_cache :=
  match dec_utx keccak raw with
  | Ok t =>
      if negb (rpc_precheck max_gas_cap t) then (Err, c)
      else if negb (check_hash keccak t) then (Err, c)
      else match from_unverified keccak recover t with
           | Ok st =>
               match mempool_insert sig_ok capacity e c s st with
               | (Ok s', c') => (Ok (u_hash (s_tx st), s'), c')
               | (Err, c') => (Err, c')
               | (Panic, c') => (Panic, c')
               end
           | Err => (Err, c)
           | Panic => (Panic, c)
           end
  | Err => (Err, c)
  | Panic => (Panic, c)
  end.
