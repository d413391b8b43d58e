(** Consensus engine, proof verification, synchronisation and restart.
    Models /repo/core/consensus/src/{engine,adapter,synchronization,status}.rs and get_status_agent of
    /repo/core/run/src/lib.rs over the storage of StorageModel, the codecs of BlockModel and the transaction WAL of WalModel.
    Simplifications: errors carry no message; the limits in CurrentStatus (tx_num_limit, max_tx_size), logging, metrics,
    gossip and the mempool's own state are left out (what the mempool answers is an argument of each call); storage and file errors do not happen.
    A node's storage is given by the history of its storage calls, newest first. *)
From Verif Require Import Bytes Rlp TxModel WalModel StorageModel BlockModel.
From stdpp Require Import base gmap list.
Local Open Scope N_scope.

(** ValidatorExtend (the fields used) and the used part of Metadata (/repo/protocol/src/types/block.rs 400-470). *)
Record validator := Validator { v_pub : bytes; v_bls : bytes; v_weight : N }.
Record meta := Meta_ { m_start : N; m_end : N; m_verifiers : list validator }.
(** ExecResp; the bloom of the logs that Block::new computes (block.rs 155-172) is a field here. *)
Record exec_resp := ExecResp_ { e_state_root : bytes; e_receipt_root : bytes; e_gas_used : N; e_bloom : bytes }.

(** Everything outside these files. *)
Record params := Params {
  digest : bytes -> bytes;                              (* Hasher::digest *)
  stx : Type; stx_hash : stx -> bytes;                  (* SignedTransaction *)
  rcpt : Type; rcpt_hash : rcpt -> bytes;               (* Receipt *)
  stxs_digest : list stx -> bytes;                      (* digest_signed_transactions, util.rs 18-24 *)
  txs_root : list bytes -> bytes;                       (* trie root of the hashes, RLP_NULL for none *)
  enc_txs : list stx -> bytes; dec_txs : bytes -> outcome (list stx);
  metadata : bytes -> N -> outcome meta;                (* metadata contract at a state root, for a block number *)
  extract : list bytes -> bytes -> option (list bytes); (* overlord::extract_voters: addresses selected by a bitmap *)
  vote_bytes : N -> N -> bytes -> bytes;                (* RLP of a precommit Vote: height, round, block hash *)
  agg_verify : bytes -> list bytes -> bytes -> bool;    (* aggregated BLS verification: hash, keys, signature *)
  exec : bytes -> proposal -> list stx -> outcome exec_resp;   (* adapter.rs 328-357 *)
  receipts_of : BlockModel.block -> list stx -> exec_resp -> list rcpt;
  after_save : bytes -> N -> outcome unit               (* engine.rs 684-726: hardfork and epoch bookkeeping after the block is saved *)
}.

Section Model.
  Variable P : params.

  (** Block::hash (block.rs 184-186), Proposal::hash (86-88). *)
  Definition block_hash (b : BlockModel.block) : bytes := digest P (enc_hdr (b_header b)).
  Definition proposal_hash (p : proposal) : bytes := digest P (enc_proposal p).
  Definition I : iface := Iface BlockModel.block header (stx P) (rcpt P) proof b_header h_number block_hash (stx_hash P) (rcpt_hash P).

  (** Proposal::new_with_state_root (90-108). *)
  Definition with_state_root (h : header) (root : bytes) (hashes : list bytes) : proposal :=
    Proposal_ (h_version h) (h_prev_hash h) (h_proposer h) root (h_transactions_root h) (h_signed_txs_hash h) (h_timestamp h)
      (h_number h) (h_gas_limit h) (h_extra_data h) (h_base_fee h) (h_proof h) (h_chain_id h) (h_call_system_script_count h) hashes.
  (** Block::new (155-182). *)
  Definition new_block (p : proposal) (r : exec_resp) : BlockModel.block :=
    Block_ (Header_ (p_version p) (p_prev_hash p) (p_proposer p) (e_state_root r) (p_transactions_root p) (p_signed_txs_hash p)
      (e_receipt_root r) (e_bloom r) (p_timestamp p) (p_number p) (e_gas_used r) (p_gas_limit p) (p_extra_data p) (p_base_fee p)
      (p_proof p) (p_call_system_script_count p) (p_chain_id p)) (p_tx_hashes p).

  (* ---------------- adapter.rs ---------------- *)
  (** get_block_by_number (286-291). *)
  Definition block_by_number (s : sstate I) (n : N) : outcome BlockModel.block :=
    match (get_block I s n).2 with Ok (Some b) => Ok b | Ok None => Err | Err => Err | Panic => Panic end.
  (** get_metadata_handle (675-686) followed by get_metadata_by_block_number. *)
  Definition metadata_at (s : sstate I) (n : N) : outcome meta :=
    match get_latest_block_header I s with Ok h => metadata P (h_state_root h) n | Err => Err | Panic => Panic end.

  (** verify_block_header (414-450); there is only one version. *)
  Definition verify_block_header (s : sstate I) (p : proposal) : outcome unit :=
    if p_number p =? 0 then Panic
    else match block_by_number s (p_number p - 1) with
         | Ok b => if beqb (block_hash b) (p_prev_hash p) then Ok () else Err
         | Err => Err | Panic => Panic
         end.

  (** verify_proof_weight (596-640); [weights] is the HashMap from address to weight. *)
  Definition U64 : N := 2 ^ 64.
  Fixpoint voters_weight (weights : gmap bytes N) (voters : list bytes) (acc : N) : outcome N :=
    match voters with
    | [] => Ok acc
    | v :: r => match weights !! v with
                | Some w => if acc + w <? U64 then voters_weight weights r (acc + w) else Panic
                | None => Err
                end
    end.
  Definition total_weight (weights : gmap bytes N) : N := map_fold (fun _ w a => w + a) 0 weights.
  Definition verify_proof_weight (weights : gmap bytes N) (voters : list bytes) : outcome unit :=
    if U64 <=? total_weight weights then Panic
    else match voters_weight weights voters 0 with
         | Ok acc =>
             if (U64 <=? 3 * acc) || (U64 <=? 2 * total_weight weights) then Panic
             else if 3 * acc <=? 2 * total_weight weights then Err else Ok ()
         | Err => Err | Panic => Panic
         end.
  (** 528-531: collecting into a HashMap keeps the last entry of an address. *)
  Definition weight_map (l : list validator) : gmap bytes N :=
    fold_left (fun m v => <[v_pub v := v_weight v]> m) l ∅.
  (** 541-551 *)
  Definition signer_keys (l : list validator) (voters : list bytes) : list bytes :=
    map v_bls (filter (fun v => v_pub v ∈ voters) l).

  (** verify_proof (453-571). *)
  Definition verify_proof (s : sstate I) (b : BlockModel.block) (pf : proof) : outcome unit :=
    let h := b_header b in
    if h_number h =? 0 then Ok ()
    else if negb (h_number h =? pf_number pf) then Err
    else match block_by_number s (h_number h - 1) with
         | Ok prev =>
             if negb (beqb (proposal_hash (with_state_root h (h_state_root (b_header prev)) (b_tx_hashes b))) (pf_block_hash pf)) then Err
             else match metadata_at s (h_number h) with
                  | Ok m =>
                      if negb ((m_start m <=? h_number h) && (h_number h <=? m_end m)) then Err
                      else match extract P (map v_pub (m_verifiers m)) (pf_bitmap pf) with
                           | None => Err
                           | Some voters =>
                               match verify_proof_weight (weight_map (m_verifiers m)) voters with
                               | Ok _ =>
                                   if agg_verify P (digest P (vote_bytes P (pf_number pf) (pf_round pf) (pf_block_hash pf)))
                                                 (signer_keys (m_verifiers m) voters) (pf_signature pf)
                                   then Ok () else Err
                               | Err => Err | Panic => Panic
                               end
                           end
                  | Err => Err | Panic => Panic
                  end
         | Err => Err | Panic => Panic
         end.

  (* ---------------- the node ---------------- *)
  (** CurrentStatus (status.rs 24-32), without the two limits. *)
  Record status := Status_ { st_prev_hash : bytes; st_last : N; st_root : bytes; st_proof : proof }.
  (** A call of receive_remote_block that holds the [syncing] lock: before the second check of need_sync, before taking the commit lock, and
      inside start_sync with its own status agent. *)
  Inductive task :=
  | TSleep (remote : N)
  | TLock (remote : N)
  | TRun (remote current target : N) (agent : status).
  Record node := Node { nd_status : status; nd_store : list (sevent I); nd_wal : gmap N (gmap bytes bytes);
    nd_exempt : list bytes; nd_syncing : bool; nd_commit_lock : bool; nd_tasks : list task }.
  Definition store (n : node) : sstate I := srun I (nd_store n).
  Definition set_store (n : node) (h : list (sevent I)) : node :=
    Node (nd_status n) h (nd_wal n) (nd_exempt n) (nd_syncing n) (nd_commit_lock n) (nd_tasks n).
  Definition set_status (n : node) (s : status) : node :=
    Node s (nd_store n) (nd_wal n) (nd_exempt n) (nd_syncing n) (nd_commit_lock n) (nd_tasks n).
  Definition set_wal (n : node) (w : gmap N (gmap bytes bytes)) : node :=
    Node (nd_status n) (nd_store n) w (nd_exempt n) (nd_syncing n) (nd_commit_lock n) (nd_tasks n).
  Definition set_exempt (n : node) (e : list bytes) : node :=
    Node (nd_status n) (nd_store n) (nd_wal n) e (nd_syncing n) (nd_commit_lock n) (nd_tasks n).
  Definition set_sync (n : node) (syncing commit : bool) (t : list task) : node :=
    Node (nd_status n) (nd_store n) (nd_wal n) (nd_exempt n) syncing commit t.
  (** a sequence of storage calls, in program order *)
  Definition writes (h : list (sevent I)) (l : list (sevent I)) : list (sevent I) := fold_left (fun h e => e :: h) l h.

  (** get_status_agent (run/lib.rs 396-416) on a freshly opened store. *)
  Definition status_of_store (h : list (sevent I)) : outcome status :=
    match get_latest_block I (restart I (srun I h)) with
    | Ok b => match get_latest_proof I (restart I (srun I h)) with
              | Ok pf => Ok (Status_ (block_hash b) (h_number (b_header b)) (h_state_root (b_header b)) pf)
              | Err => Err | Panic => Panic
              end
    | Err => Err | Panic => Panic
    end.

  (* ---------------- engine.rs ---------------- *)
  (** validate_timestamp (815-841). *)
  Definition validate_timestamp (now proposed previous : N) : bool :=
    if proposed <? previous then false else if now <? proposed then false else true.

  (** get_block (63-144): the proposal for the next height; [base] holds what comes from the mempool, the clock and the configuration. *)
  Record propose_input := ProposeIn { pi_proposer : bytes; pi_hashes : list bytes; pi_signed : list (stx P); pi_calls : N; pi_now : N;
    pi_extra : list extra_data; pi_gas_limit : N; pi_base_fee : N; pi_chain_id : N }.
  Definition get_proposal (n : node) (next : N) (i : propose_input) : node * outcome proposal :=
    let st := nd_status n in
    let p := Proposal_ V0 (st_prev_hash st) (pi_proposer i) (st_root st) (txs_root P (pi_hashes i)) (stxs_digest P (pi_signed i)) (pi_now i)
               next (pi_gas_limit i) (pi_extra i) (pi_base_fee i) (st_proof st) (pi_chain_id i) (pi_calls i) (pi_hashes i) in
    if U64 <=? pf_number (st_proof st) + 1 then (n, Panic)
    else if negb (next =? pf_number (st_proof st) + 1) then (n, if next =? 0 then Panic else Err)
    else (set_exempt n (proposal_hash p :: nd_exempt n), Ok p).

  (** What the mempool and the clock answer during a check. *)
  Record check_input := CheckIn { ci_now : N; ci_hardfork_ok : bytes -> bool; ci_verify_txs : N -> list bytes -> bool;
    ci_full : list bytes -> outcome (list (stx P)) }.
  (** check_order_transactions (593-633). *)
  Definition check_order (p : proposal) (signed : list (stx P)) : outcome unit :=
    if negb (beqb (stxs_digest P signed) (p_signed_txs_hash p)) then Err
    else if negb (beqb (txs_root P (p_tx_hashes p)) (p_transactions_root p)) then Err else Ok ().
  (** inner_check_block (544-591). *)
  Definition inner_check (n : node) (p : proposal) (i : check_input) : outcome unit :=
    match verify_block_header (store n) p with
    | Ok _ =>
        match block_by_number (store n) (p_number p - 1) with
        | Ok prev =>
            if negb (validate_timestamp (ci_now i) (p_timestamp p) (h_timestamp (b_header prev))) then Err
            else match verify_proof (store n) prev (p_proof p) with
                 | Ok _ => if negb (ci_verify_txs i (p_number p) (p_tx_hashes p)) then Err
                           else match ci_full i (p_tx_hashes p) with Ok l => check_order p l | Err => Err | Panic => Panic end
                 | Err => Err | Panic => Panic
                 end
        | Err => Err | Panic => Panic
        end
    | Err => Err | Panic => Panic
    end.
  (** check_block (153-242); [hash] is the hash overlord computed for the proposal. *)
  Definition check_block (n : node) (next : N) (hash : bytes) (p : proposal) (i : check_input) : node * outcome unit :=
    if U64 <=? pf_number (p_proof p) + 1 then (n, Panic)
    else if negb (p_number p =? pf_number (p_proof p) + 1) then (n, if p_number p =? 0 then Panic else Err)
    else if negb (match p_extra_data p with [] => true | e :: _ => ci_hardfork_ok i e end) then (n, Err)
    else match (if bool_decide (hash ∈ nd_exempt n) then Ok () else inner_check n p i) with
         | Ok _ => match ci_full i (p_tx_hashes p) with
                   | Ok l => (set_wal n (save_txs (stx P) (enc_txs P) (nd_wal n) next (p_transactions_root p) l), Ok ())
                   | Err => (n, Err) | Panic => (n, Panic)
                   end
         | Err => (n, Err) | Panic => (n, Panic)
         end.

  (** The storage calls of update_status (650-757), in program order: save_proof, save_signed_txs, save_receipts, save_block (set_block, then set_latest_block). *)
  Definition commit_writes (b : BlockModel.block) (pf : proof) (txs : list (stx P)) (r : exec_resp) : list (sevent I) :=
    [EProof I pf; ETxs I (h_number (b_header b)) txs; ERcpts I (h_number (b_header b)) (receipts_of P b txs r); ESet I b; ELatest I b].
  (** commit (253-367) up to the storage writes: the block to be written, or the early result. *)
  Inductive commit_plan :=
  | PDone (r : outcome N)
  | PWrite (b : BlockModel.block) (pf : proof) (txs : list (stx P)) (r : exec_resp).
  Definition plan_commit (n : node) (stopped : bool) (current : N) (content : proposal) (pf : proof)
      (full : list bytes -> outcome (list (stx P))) : commit_plan :=
    if stopped then PDone Err
    else if nd_commit_lock n then PDone Err
    else if U64 <=? current + 1 then PDone Panic
    else match metadata_at (store n) (current + 1) with
         | Ok _ =>
             let st := nd_status n in
             if current =? st_last st then PDone (Ok (current + 1))
             else if U64 <=? st_last st + 1 then PDone Panic
             else if negb (current =? st_last st + 1) then PDone Err
             else
               let txs := match full (p_tx_hashes content) with
                          | Ok l => Ok l
                          | _ => load_txs (stx P) (dec_txs P) (nd_wal n) current (p_transactions_root content) end in
               match txs with
               | Ok l => match exec P (st_root st) content l with
                         | Ok r => PWrite (new_block content r) pf l r
                         | Err => PDone Err | Panic => PDone Panic
                         end
               | Err => PDone Err | Panic => PDone Panic
               end
         | Err => PDone Err | Panic => PDone Panic
         end.
  Definition commit (n : node) (stopped : bool) (current : N) (content : proposal) (pf : proof)
      (full : list bytes -> outcome (list (stx P))) : node * outcome N :=
    match plan_commit n stopped current content pf full with
    | PDone r => (n, r)
    | PWrite b pf l r =>
        let n1 := set_store n (writes (nd_store n) (commit_writes b pf l r)) in
        match after_save P (e_state_root r) (h_number (b_header b)) with
        | Ok _ =>
            let n2 := set_status n1 (Status_ (block_hash b) (h_number (b_header b)) (e_state_root r) pf) in
            let n3 := set_exempt (set_wal n2 (remove_upto (nd_wal n2) (current - 2))) [] in
            match metadata_at (store n3) (current + 1) with
            | Ok _ => (n3, Ok (current + 1))
            | Err => (n3, Err) | Panic => (n3, Panic)
            end
        | Err => (n1, Err) | Panic => (n1, Panic)
        end
    end.

  (* ---------------- synchronization.rs ---------------- *)
  Definition ONCE_SYNC_BLOCK_LIMIT : N := 50.
  (** What the peers and the mempool answer while one block is fetched. *)
  Record fetch_input := FetchIn { fi_block : BlockModel.block; fi_mem : bytes -> option (stx P); fi_remote : list bytes -> outcome (list (stx P));
    fi_chunk : nat; fi_proof : proof }.
  (** get_rich_block_from_remote (382-438): which transactions are missing, and where they belong. *)
  Fixpoint split_mem (mem : bytes -> option (stx P)) (l : list bytes) (i : nat)
      (res : gmap nat (stx P)) (missing : gmap bytes nat) (ml : list bytes) : gmap nat (stx P) * gmap bytes nat * list bytes :=
    match l with
    | [] => (res, missing, ml)
    | x :: r => match mem x with
                | Some t => split_mem mem r (S i) (<[i := t]> res) missing ml
                | None => split_mem mem r (S i) res (<[x := i]> missing) (ml ++ [x])
                end
    end.
  Fixpoint place (l : list (stx P)) (res : gmap nat (stx P)) (missing : gmap bytes nat) : outcome (gmap nat (stx P) * gmap bytes nat) :=
    match l with
    | [] => Ok (res, missing)
    | t :: r => match missing !! stx_hash P t with
                | Some i => place r (<[i := t]> res) (delete (stx_hash P t) missing)
                | None => Err
                end
    end.
  Fixpoint chunks (fuel k : nat) (l : list bytes) : list (list bytes) :=
    match fuel with O => [] | S f => match l with [] => [] | _ => take k l :: chunks f k (drop k l) end end.
  Fixpoint pull (remote : list bytes -> outcome (list (stx P))) (cs : list (list bytes)) (res : gmap nat (stx P)) (missing : gmap bytes nat)
      : outcome (gmap nat (stx P) * gmap bytes nat) :=
    match cs with
    | [] => Ok (res, missing)
    | c :: r => match remote c with
                | Ok l => match place l res missing with
                          | Ok (res', missing') => pull remote r res' missing'
                          | Err => Err | Panic => Panic
                          end
                | Err => Err | Panic => Panic
                end
    end.
  (** BTreeMap::into_values: the values in index order *)
  Definition in_order (bound : nat) (res : gmap nat (stx P)) : list (stx P) := omap (fun i => res !! i) (seq 0 bound).
  Definition get_rich_block (number : N) (i : fetch_input) : outcome (BlockModel.block * list (stx P)) :=
    let b := fi_block i in
    if negb (h_number (b_header b) =? number) then Err
    else let '(res, missing, ml) := split_mem (fi_mem i) (b_tx_hashes b) 0 ∅ ∅ [] in
      if bool_decide (fi_chunk i = O) then Panic
      else match pull (fi_remote i) (chunks (length ml) (fi_chunk i) ml) res missing with
           | Ok (res', missing') => if bool_decide (missing' = ∅) then Ok (b, in_order (length (b_tx_hashes b)) res') else Err
           | Err => Err | Panic => Panic
           end.
  (** verify_block (208-297); the proof of the block itself comes from a peer. *)
  Definition verify_block (s : sstate I) (own_root : bytes) (b : BlockModel.block) (txs : list (stx P)) (pf : proof) : outcome unit :=
    let h := b_header b in
    match verify_proof s b pf with
    | Ok _ =>
        match verify_block_header s (with_state_root h own_root (b_tx_hashes b)) with
        | Ok _ =>
            match block_by_number s (h_number h - 1) with
            | Ok prev => match verify_proof s prev (h_proof h) with
                         | Ok _ => if negb (beqb (stxs_digest P txs) (h_signed_txs_hash h)) then Err else Ok ()
                         | Err => Err | Panic => Panic
                         end
            | Err => Err | Panic => Panic
            end
        | Err => Err | Panic => Panic
        end
    | Err => Err | Panic => Panic
    end.
  (** save_chain_data (452-470): the proof written is the one inside the header. *)
  Definition sync_writes (b : BlockModel.block) (txs : list (stx P)) (r : exec_resp) : list (sevent I) :=
    [ETxs I (h_number (b_header b)) txs; ERcpts I (h_number (b_header b)) (receipts_of P b txs r); EProof I (h_proof (b_header b)); ESet I b; ELatest I b].
  (** commit_block (304-379) up to the storage writes. *)
  Definition plan_sync (s : sstate I) (agent_root own_root : bytes) (b : BlockModel.block) (txs : list (stx P)) : outcome exec_resp :=
    let h := b_header b in
    match exec P agent_root (with_state_root h own_root (b_tx_hashes b)) txs with
    | Ok r => if negb (beqb (e_state_root r) (h_state_root h)) then Err
              else if negb (beqb (e_receipt_root r) (h_receipts_root h)) then Err
              else match metadata_at s (h_number h) with Ok _ => Ok r | Err => Err | Panic => Panic end
    | Err => Err | Panic => Panic
    end.
  (** One iteration of start_sync (158-203): the block to write, its transactions and the result of executing it. *)
  Definition sync_plan (n : node) (current : N) (agent : status) (i : fetch_input) : outcome (BlockModel.block * list (stx P) * exec_resp) :=
    match get_rich_block (current + 1) i with
    | Ok (b, txs) => match verify_block (store n) (st_root (nd_status n)) b txs (fi_proof i) with
                     | Ok _ => match plan_sync (store n) (st_root agent) (st_root (nd_status n)) b txs with
                               | Ok r => Ok (b, txs, r)
                               | Err => Err | Panic => Panic
                               end
                     | Err => Err | Panic => Panic
                     end
    | Err => Err | Panic => Panic
    end.
  Definition remove_task (l : list task) (k : nat) : list task := take k l ++ drop (S k) l.
  (** receive_remote_block returns: the guards are dropped. *)
  Definition finish (n : node) (k : nat) (release_commit : bool) : node :=
    set_sync n false (if release_commit then false else nd_commit_lock n) (remove_task (nd_tasks n) k).
  (** receive_remote_block (36-97): the call up to its first suspension; need_sync (472-499) sleeps when the remote is one ahead. *)
  Definition announce (n : node) (remote : N) : node :=
    if nd_syncing n then n
    else if remote =? 0 then n
    else if remote <=? st_last (nd_status n) then n
    else set_sync n true (nd_commit_lock n)
           (nd_tasks n ++ [if st_last (nd_status n) =? remote - 1 then TSleep remote else TLock remote]).
  (** The next part of task [k]. *)
  Definition task_step (n : node) (k : nat) (i : option fetch_input) : node :=
    match nd_tasks n !! k with
    | None => n
    | Some (TSleep r) => if st_last (nd_status n) =? r then finish n k false
                         else set_sync n true (nd_commit_lock n) (<[k := TLock r]> (nd_tasks n))
    | Some (TLock r) =>
        if nd_commit_lock n then finish n k false
        else if r <=? st_last (nd_status n) then finish n k false
        else
          let cur := st_last (nd_status n) in
          if U64 <=? cur + ONCE_SYNC_BLOCK_LIMIT then finish n k false
          else set_sync n true true
                 (<[k := TRun r cur (if r <? cur + ONCE_SYNC_BLOCK_LIMIT then r else cur + ONCE_SYNC_BLOCK_LIMIT) (nd_status n)]> (nd_tasks n))
    | Some (TRun r cur target agent) =>
        if cur <? target then
          match i with
          | Some i =>
              match sync_plan n cur agent i with
              | Ok (b, txs, x) =>
                  let n1 := set_store n (writes (nd_store n) (sync_writes b txs x)) in
                  set_sync n1 true true
                    (<[k := TRun r (cur + 1) target (Status_ (block_hash b) (h_number (b_header b)) (e_state_root x) (fi_proof i))]> (nd_tasks n))
              | _ => finish (set_status n agent) k true
              end
          | None => finish (set_status n agent) k true
          end
        else finish (set_status n agent) k true
    end.

  (* ---------------- executions ---------------- *)
  (** Storage calls that only touch the caches. *)
  Definition cache_event (e : sevent I) : bool :=
    match e with
    | EGetBlock _ _ | EGetHeader _ _ | EGetNumber _ _ | EGetByHash _ _ | EGetTx _ _ | EGetRcpt _ _ | EGetCode _ _ | EGetCodeAt _ _ | EEvict _ _ => true
    | _ => false
    end.
  Inductive event :=
  | VPropose (next : N) (i : propose_input)
  | VCheck (next : N) (hash : bytes) (p : proposal) (i : check_input)
  | VCommit (stopped : bool) (current : N) (content : proposal) (pf : proof) (full : list bytes -> outcome (list (stx P)))
  | VAnnounce (remote : N)
  | VTask (k : nat) (i : option fetch_input)
  | VCache (e : sevent I).
  Definition step (n : node) (e : event) : node :=
    match e with
    | VPropose x i => (get_proposal n x i).1
    | VCheck x h p i => (check_block n x h p i).1
    | VCommit s c p pf f => (commit n s c p pf f).1
    | VAnnounce r => announce n r
    | VTask k i => task_step n k i
    | VCache e => if cache_event e then set_store n (e :: nd_store n) else n
    end.
  (** A crash inside a commit or inside one synchronisation step, after [j] of its storage calls, and the restart. *)
  Definition crashed_store (n : node) (e : event) (j : nat) : list (sevent I) :=
    match e with
    | VCommit s c p pf f =>
        match plan_commit n s c p pf f with
        | PWrite b pf l r => writes (nd_store n) (take j (commit_writes b pf l r))
        | PDone _ => nd_store n
        end
    | VTask k (Some i) =>
        match nd_tasks n !! k with
        | Some (TRun r cur target agent) =>
            if cur <? target then
              match sync_plan n cur agent i with
              | Ok (b, txs, x) => writes (nd_store n) (take j (sync_writes b txs x))
              | _ => nd_store n
              end
            else nd_store n
        | _ => nd_store n
        end
    | _ => nd_store n
    end.
  (** A process starting on a given store (run/lib.rs 150-240); the WAL directory survives. *)
  Definition boot (h : list (sevent I)) (wal : gmap N (gmap bytes bytes)) : outcome node :=
    match status_of_store h with
    | Ok st => Ok (Node st (ERestart I :: h) wal [] false false [])
    | Err => Err | Panic => Panic
    end.
End Model.
