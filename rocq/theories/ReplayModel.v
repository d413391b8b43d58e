(** A validator's pool, database and state over the life of a chain: how transactions enter the pool, how a proposal is
    checked and how a block is committed.
    Models the composition of /repo/core/mempool/src/lib.rs (insert_tx, ensure_order_txs, get_full_txs, flush),
    /repo/core/consensus/src/engine.rs:591-602 (the transaction part of inner_check_block), 253-348 (commit) and 650-680
    (update_status) over MempoolModel, PoolModel and the executor.

    Simplifications.
    - A transaction is identified by its hash ([UnverifiedTransaction.hash]): the map [v_seen] holds the transaction behind each
      [TxWrapper] (tx_wrapper.rs:8-14), of which PoolModel keeps only what the pool looks at.
    - [MemPool::insert] is two steps, as other tasks run at its await points: the checks ([EVet], lib.rs:95-117) and the insertion
      into the pool ([EAdmit], lib.rs:118-123).  A check of a proposal and a commit are one step each.
    - The header checks of a proposal are in ConsensusModel (check_block), whose inputs [ci_verify_txs] and [ci_full] are here
      computed; both digests are computed from the same lists, so a proposer can always make them match.
    - [exec] is the executor (ExecModel.exec_block) on the latest state, with the height of the block. *)
From Verif Require Import Bytes Rlp TxModel PoolModel MempoolModel ExecModel.
From stdpp Require Import base gmap list.
Local Open Scope N_scope.

Record vnode := VNode {
  v_pool : pool; v_cache : gmap bytes (N * N);
  v_vetted : list (stx * (bool * N));      (* admissions under way: transaction, system call, nonce difference *)
  v_seen : gmap N stx;
  v_stored : gmap N stx;                   (* transactions of committed blocks *)
  v_state : xstate;                        (* latest state *)
  v_checked : list (list N * list stx);    (* proposals of this height found good, with their transactions *)
  v_blocks : list (list N * list stx) }.   (* committed, newest first *)

Section Node.
  Variables (capacity timeout chain_id max_size : N) (sig_ok : stx -> bool) (sort : list ptr -> list ptr).
  Variable validator_at : xstate -> bytes -> bool.
  Variable exec : N -> xstate -> list stx -> outcome xstate.

  (** What the adapter reads (mempool/src/adapter/mod.rs:181-199, 387-439, 459-465). *)
  Definition env_of (v : vnode) : env :=
    Env chain_id max_size
      (fun a => let x := get_account (xs_acc (v_state v)) a in (a_nonce x, a_balance x))
      (validator_at (v_state v)) (fun h => v_stored v !! h).

  (** The transaction behind a hash, once the pool has taken it in. *)
  Definition see (m : gmap N stx) (t : stx) : gmap N stx :=
    match m !! hash_of t with Some _ => m | None => <[hash_of t := t]> m end.

  Definition set_pool (v : vnode) (s : pool) (c : gmap bytes (N * N)) (seen : gmap N stx) : vnode :=
    VNode s c (v_vetted v) seen (v_stored v) (v_state v) (v_checked v) (v_blocks v).
  Definition set_vetted (v : vnode) (c : gmap bytes (N * N)) (l : list (stx * (bool * N))) : vnode :=
    VNode (v_pool v) c l (v_seen v) (v_stored v) (v_state v) (v_checked v) (v_blocks v).
  Definition add_checked (v : vnode) (order : list N) (txs : list stx) : vnode :=
    VNode (v_pool v) (v_cache v) (v_vetted v) (v_seen v) (v_stored v) (v_state v) ((order, txs) :: v_checked v) (v_blocks v).

  (** MemPool::insert up to the end of the checks (lib.rs:188-197, 95-117). *)
  Definition vet (v : vnode) (t : stx) : outcome vnode :=
    match is_call_system_script (tx_action (unsigned_of t)) with
    | Ok sys =>
        if reach_limit capacity (v_pool v) then Err
        else if pool_contains (v_pool v) (hash_of t) then Ok v
        else match check_all sig_ok (env_of v) (v_cache v) t with
             | (Ok d, c1) => Ok (set_vetted v c1 (v_vetted v ++ [(t, (sys, d))]))
             | (Err, c1) => Ok (set_vetted v c1 (v_vetted v))
             | (Panic, _) => Panic
             end
    | Err => Err
    | Panic => Panic
    end.
  (** The insertion (lib.rs:118-123) of the admission [k]. *)
  Definition admit (v : vnode) (k : nat) : outcome vnode :=
    match v_vetted v !! k with
    | Some (t, (sys, d)) =>
        let v1 := set_vetted v (v_cache v) (take k (v_vetted v) ++ drop (S k) (v_vetted v)) in
        match put capacity (v_pool v) t sys true d with
        | Ok s => Ok (set_pool v1 s (v_cache v) (see (v_seen v) t))
        | Err => Ok v1
        | Panic => Panic
        end
    | None => Err
    end.

  (** The transactions of a list of hashes, engine.rs:598-602 by get_full_txs (lib.rs:242-281). *)
  Definition full (v : vnode) (order : list N) : outcome (list stx) :=
    match get_full_txs (fun h => v_stored v !! h) (v_pool v) order with
    | Ok l => Ok (omap (fun p => match v_seen v !! t_hash p with Some t => Some t | None => v_stored v !! t_hash p end) l)
    | Err => Err
    | Panic => Panic
    end.

  (** engine.rs:591-602: the mempool vouches for the hashes, pulling those it does not know from the proposer, whose answer
      is [answer]; then the transactions are collected. *)
  Definition check (v : vnode) (order : list N) (answer : option (list stx)) : outcome vnode :=
    match ensure_order_txs sig_ok capacity (env_of v) (v_cache v) (v_pool v) order answer with
    | (Ok s, c) =>
        let pulled := if bool_decide (unknown (v_pool v) order = []) then [] else default [] answer in
        let v1 := set_pool v s c (fold_left see pulled (v_seen v)) in
        match full v1 order with
        | Ok txs => Ok (add_checked v1 order txs)
        | Err => Ok v1
        | Panic => Panic
        end
    | (Err, c) => Ok (set_pool v (v_pool v) c (v_seen v))
    | (Panic, _) => Panic
    end.

  (** The node's own proposal (get_block, engine.rs:63-144): what the pool packages, exempt from the check (engine.rs:140, 200). *)
  Definition own (v : vnode) (gas : N) (limit : nat) : outcome vnode :=
    match pool_package sort (v_pool v) gas limit with
    | Ok (s, (order, _)) =>
        let v1 := set_pool v s (v_cache v) (v_seen v) in
        match full v1 order with
        | Ok txs => Ok (add_checked v1 order txs)
        | Err => Ok v1
        | Panic => Panic
        end
    | Err => Err
    | Panic => Panic
    end.

  (** commit (engine.rs:253-348) with update_status (650-680): execute, store the transactions, flush the pool. *)
  Definition commit (v : vnode) (k : nat) (number : N) : outcome vnode :=
    match v_checked v !! k with
    | Some (order, txs) =>
        match exec number (v_state v) txs with
        | Ok st =>
            match mempool_flush timeout (v_cache v) (v_pool v) order number with
            | (Ok s, c) =>
                Ok (VNode s c (v_vetted v) (v_seen v) (fold_left (fun m t => <[hash_of t := t]> m) txs (v_stored v)) st []
                      ((order, txs) :: v_blocks v))
            | (Err, _) => Err
            | (Panic, _) => Panic
            end
        | Err => Err
        | Panic => Panic
        end
    | None => Err
    end.

  Inductive event :=
  | EVet (t : stx)                                       (* eth_sendRawTransaction or gossip: a transaction arrives *)
  | EAdmit (k : nat)
  | ECheck (order : list N) (answer : option (list stx)) (* a proposal arrives *)
  | EOwn (gas : N) (limit : nat)
  | ERefresh                                             (* the pool's background task *)
  | ECommit (k : nat) (number : N).

  Definition step (v : vnode) (e : event) : outcome vnode :=
    match e with
    | EVet t => vet v t
    | EAdmit k => admit v k
    | ECheck order answer => check v order answer
    | EOwn gas limit => own v gas limit
    | ERefresh => match flush_to_pending (v_pool v) with
                  | Ok s => Ok (set_pool v s (v_cache v) (v_seen v))
                  | Err => Err
                  | Panic => Panic
                  end
    | ECommit k number => commit v k number
    end.
  (** An error leaves the node as it was; a panic ends the process. *)
  Fixpoint run (v : vnode) (l : list event) : outcome vnode :=
    match l with
    | [] => Ok v
    | e :: r => match step v e with Ok v1 => run v1 r | Err => run v r | Panic => Panic end
    end.
  Definition start (s : xstate) : vnode := VNode pool_new ∅ [] ∅ ∅ s [] [].

  (** Everything executed so far, oldest first. *)
  Definition executed (v : vnode) : list stx := concat (map snd (rev (v_blocks v))).
End Node.
