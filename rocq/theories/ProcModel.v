(** What a process keeps outside the state: the hardfork flags and the roots of the system contracts.
    Models /repo/core/executor/src/lib.rs:46-49 (the thread-local roots), 66-125 (call), 128-208 (exec),
    395-424 (init_local_system_contract_roots, config), system_contract/utils.rs:39-104 (the slots),
    system_contract/metadata/{mod.rs:37,109-137; handle.rs:57-64} (HARDFORK_INFO), core/consensus/src/adapter.rs:328-358
    (exec), synchronization.rs:304-380 (commit_block) and core/run/src/lib.rs:203-213 (start).

    In ExecModel the root of a system contract is one field.  Here it is two: the slot in the contract's account,
    which belongs to the state, and the thread-local cell that the contracts and precompiles read and write.
    A root stands for the contents of the store that it names, as in ExecModel.

    Simplifications: writes of the databases do not fail; the interpreter is the oracle of ExecModel and sees the
    thread-local cells. *)
From Verif Require Import Bytes Rlp TxModel BlockModel MempoolModel CellModel MetaModel ExecModel.
From stdpp Require Import base gmap.
Local Open Scope N_scope.

(** What a state root names: accounts, codes and the two slots (METADATA_ROOT_KEY in the metadata account,
    HEADER_CELL_ROOT_KEY in the accounts of the light client and the image cells, of which only the first is read). *)
Record pstate := PState { p_acc : accounts; p_code : gmap bytes bytes; p_meta : meta; p_cells : trie }.

(** CURRENT_METADATA_ROOT and CURRENT_HEADER_CELL_ROOT of one thread (lib.rs:46-49), in this order. *)
Notation locals := (meta * trie)%type.
(** H256::default(): both stores are empty. *)
Definition locals0 : locals := (meta0, ∅).

(** A block as the executor sees it: proposer, extra data and transactions (Proposal -> ExecutorContext,
    protocol/src/types/executor.rs:52-79); its number is that of the parent plus one. *)
Record pblock := PBlock { pb_proposer : bytes; pb_extra : list bytes; pb_txs : list stx }.

(** A process: HARDFORK_INFO and the cells of its threads. *)
Record proc := Proc { pr_hf : N; pr_locals : gmap N locals }.
(** A node: what is on the disk, newest first (the states of the blocks, and gas and answers of their transactions), and
    the process. *)
Record pnode := PNode { pn_chain : list pstate; pn_answers : list (N * list tx_resp); pn_proc : proc }.

(** Number of the newest block: the chain starts with the state after block 0. *)
Definition tip_number (c : list pstate) : N := N.of_nat (length c) - 1.

Section Proc.
  Variable keccak : bytes -> bytes.
  Variable meta_abi : bytes -> option meta_call.
  Context {hdr : Type} (hdr_hash : hdr -> bytes) (henc : hdr -> bytes).
  Variable ckb_abi image_abi : bytes -> option (@cell_call hdr).
  Variable evm : xstate -> N -> stx -> evm_out.
  Notation dispatch := (dispatch keccak meta_abi hdr_hash henc ckb_abi image_abi).
  Notation evm_exec := (evm_exec keccak evm).

  (** The adapter during a block: [lv_x] has the thread-local cells in the places of the roots, beside it the slots. *)
  Record lstate := LState { lv_x : xstate; lv_meta : meta; lv_cells : trie }.

  (** init_local_system_contract_roots (lib.rs:395-408): the cells of the thread are overwritten with the slots,
      whatever [_old] was in them. *)
  Definition init_locals (p : pstate) (_old : locals) : locals := (p_meta p, p_cells p).

  (** generate_mpt_root_changes (utils.rs:64-104) as called by update_states (39-48): a system contract that succeeded copies the
      cell of the thread to the slot; the native token contract has none.  The answer of the contract decides: the
      contracts return revert_resp before update_states and succeed_resp after it. *)
  Definition write_slots_of (t : stx) (ok : bool) (x : xstate) (m : meta) (c : trie) : lstate :=
    match tx_to (unsigned_of t) with
    | Some a =>
        if ok && beqb a METADATA then LState x (xs_meta x) c
        else if ok && (beqb a CKB || beqb a IMAGE) then LState x m (xs_cells x)
        else LState x m c
    | None => LState x m c
    end.

  (** Body of the loop (lib.rs:148-160), as ExecModel.exec_tx. *)
  Definition lexec_tx (limit : N) (l : lstate) (t : stx) : outcome (lstate * tx_resp) :=
    let s := lv_x l in
    let c := xs_ctx s in
    let s0 := XState (xs_acc s) (xs_code s) (xs_logs s)
                (XCtx (c_number c) (s_sender t) (gas_price (unsigned_of t)) (c_extra c))
                (xs_meta s) (xs_cells s) (xs_hf s) in
    let finish ok s' x :=
      Ok (write_slots_of t ok (set_logs s' []) (lv_meta l) (lv_cells l),
          TxResp_ (x_exit x) (x_ret x) (x_gas_used x) (x_remain_gas x) (x_fee_cost x) (xs_logs s') (x_code_address x) (x_removed x)) in
    match dispatch s0 t with
    | Some (Ok (s', x)) => finish (is_succeed (x_exit x)) s' x
    | Some _ => Panic
    | None => match evm_exec limit s0 t with Ok (s', x) => finish false s' x | _ => Panic end
    end.

  Fixpoint lexec_loop (limit : N) (l : lstate) (txs : list stx) (gas fee : N) : outcome (lstate * list tx_resp * N * N) :=
    match txs with
    | [] => Ok (l, [], gas, fee)
    | t :: r =>
        match lexec_tx limit l t with
        | Ok (l', x) =>
            if U64_MAX <? gas + x_gas_used x then Panic
            else match lexec_loop limit l' r (gas + x_gas_used x) (add_sat fee (x_fee_cost x)) with
                 | Ok (lf, xs, g, f) => Ok (lf, x :: xs, g, f)
                 | _ => Panic
                 end
        | _ => Panic
        end
    end.

  (** The context of a block (executor.rs:52-79): the gas price starts at 1 (Proposal -> ExecutorContext). *)
  Definition block_ctx (number : N) (b : pblock) : xctx := XCtx number (pb_proposer b) 1 (pb_extra b).

  (** AxonExecutor::exec (lib.rs:128-208) on a thread whose cells hold [tl] in a process with flags [hf]: new state,
      answers, new cells and new flags.  The contract size limit comes from the cell of the thread (config, 410-424). *)
  Definition lexec (hf : N) (tl : locals) (p : pstate) (number : N) (b : pblock) (vals : list validator)
      : outcome (pstate * (N * list tx_resp) * locals * N) :=
    let tl0 := init_locals p tl in
    let s := XState (p_acc p) (p_code p) [] (block_ctx number b) (fst tl0) (snd tl0) hf in
    match contract_limit s with
    | Ok limit =>
        match lexec_loop limit (LState s (p_meta p) (p_cells p)) (pb_txs b) 0 0 with
        | Ok (l1, rs, gas, fee) =>
            let s1 := lv_x l1 in
            match (if number =? 0 then Ok [] else allocate number fee vals) with
            | Ok al =>
                match credit (xs_acc s1) al with
                | Ok m =>
                    let s2 := set_acc s1 m in
                    match meta_after_block (xs_meta s2) (xs_hf s2) number (c_origin (xs_ctx s2)) (c_extra (xs_ctx s2)) with
                    | Ok (mm, hf') =>
                        let s3 := XState (xs_acc s2) (xs_code s2) (xs_logs s2) (xs_ctx s2) mm (xs_cells s2) hf' in
                        let s4 := if number =? 0 then s3 else apply_ops keccak s3 [touch s3 METADATA] [] false in
                        Ok (PState (xs_acc s4) (xs_code s4) (if number =? 0 then lv_meta l1 else mm) (lv_cells l1),
                            (gas, rs), (mm, xs_cells s4), hf')
                    | _ => Panic
                    end
                | _ => Panic
                end
            | _ => Panic
            end
        | _ => Panic
        end
    | _ => Panic
    end.

  (** ConsensusAdapter::exec (adapter.rs:328-358): the validators of the block's number in the state of the parent. *)
  Definition adapter_exec (hf : N) (tl : locals) (p : pstate) (number : N) (b : pblock)
      : outcome (pstate * (N * list tx_resp) * locals * N) :=
    match metadata_by_block (p_meta p) number with
    | Ok md => lexec hf tl p number b (mi_verifiers (md_inner md))
    | Err => Err
    | Panic => Panic
    end.

  (** What can happen to a node.  [ECommit k b]: thread k executes the next block and it is stored (engine.rs:320-337,
      synchronization.rs:313-368).  [EReject k b]: thread k executes it and the result is thrown away, as commit_block of
      the synchronisation does when the root that the sender put into the header differs (327-341).  [ECall k h]: thread k
      answers a query on the state of block h.  [ERestart]: start (run/src/lib.rs:203-213). *)
  Inductive pevent := ECommit (k : N) (b : pblock) | EReject (k : N) (b : pblock) | ECall (k h : N) | ERestart.

  Definition locals_of (q : proc) (k : N) : locals := default locals0 (pr_locals q !! k).

  (** State of block h: the chain is newest first. *)
  Definition state_at (c : list pstate) (h : N) : option pstate := nth_error (List.rev c) (N.to_nat h).

  (** start: MetadataHandle::init_hardfork (handle.rs:57-64) with the number and the state of the newest block; new threads. *)
  Definition start (c : list pstate) : proc :=
    match c with
    | p :: _ => Proc (hardfork_info (p_meta p) (tip_number c)) ∅
    | [] => Proc 0 ∅
    end.

  (** One event.  A panic ends the process; [None] also stands for an event that is not possible (no chain yet, no
      such block). *)
  Definition pstep (n : pnode) (e : pevent) : option pnode :=
    let q := pn_proc n in
    let c := pn_chain n in
    match e with
    | ECommit k b =>
        match c with
        | p :: _ =>
            match adapter_exec (pr_hf q) (locals_of q k) p (tip_number c + 1) b with
            | Ok (p', x, tl, hf) => Some (PNode (p' :: c) (x :: pn_answers n) (Proc hf (<[k := tl]> (pr_locals q))))
            | _ => None
            end
        | [] => None
        end
    | EReject k b =>
        match c with
        | p :: _ =>
            match adapter_exec (pr_hf q) (locals_of q k) p (tip_number c + 1) b with
            | Ok (_, _, tl, hf) => Some (PNode c (pn_answers n) (Proc hf (<[k := tl]> (pr_locals q))))
            | _ => None
            end
        | [] => None
        end
    | ECall k h =>
        match state_at c h with
        | Some p => Some (PNode c (pn_answers n) (Proc (pr_hf q) (<[k := init_locals p (locals_of q k)]> (pr_locals q))))
        | None => None
        end
    | ERestart => Some (PNode c (pn_answers n) (start c))
    end.

  Fixpoint prun (n : pnode) (es : list pevent) : option pnode :=
    match es with
    | [] => Some n
    | e :: r => match pstep n e with Some n' => prun n' r | None => None end
    end.

  (** A node that was started on a chain. *)
  Definition boot (c : list pstate) : pnode := PNode c [] (start c).

  (** The size limit with which thread k answers a query on the state p (lib.rs:76-78, 410-424): the flags are those of the
      process, the configuration that of the state. *)
  Definition call_limit (q : proc) (k : N) (p : pstate) : outcome N :=
    let tl := init_locals p (locals_of q k) in
    if enabled ANDROMEDA (pr_hf q)
    then match get_consensus_config (fst tl) with Ok c => Ok (cf_max_contract c) | _ => Panic end
    else Ok default_max_contract_limit.
End Proc.
