(** Block execution.
    Models /repo/core/executor/src/lib.rs (exec, evm_exec, config), utils.rs (fee split, code address),
    adapter/backend/{read_only.rs,apply.rs} (accounts), system_contract/{mod.rs,utils.rs,native_token.rs,
    metadata/mod.rs,ckb_light_client/mod.rs,image_cell/mod.rs} (dispatch and contracts).

    Simplifications: the state trie is a map from addresses to accounts and an account's storage is a map, so
    roots are contents; receipts and their root are not computed here (BloomModel has them).  The storage
    slots in which the system contracts keep their roots are the fields [xs_meta] and [xs_cells]; writing
    the slot only touches the contract's account.  The EVM interpreter and the ABI decoders are oracles.
    Database errors are not modelled. *)
From Verif Require Import Bytes Rlp TxModel BlockModel MempoolModel CellModel MetaModel.
From stdpp Require Import base gmap.
Local Open Scope N_scope.

Definition U256_MOD : N := 2^256.

(** NIL_DATA (protocol/src/types/primitive.rs:30-33), the hash of no code. *)
Definition NIL_CODE : bytes :=
  be_fixed 32 0xc5d2460186f7233c927e7db2dcc703c0e500b653ca82273b7bfad8045d85a470.

(** Account (crate ethereum, re-exported by types/executor.rs:1). *)
Record account := Acc {
  a_nonce : N; a_balance : N; a_storage : gmap bytes N; a_code : bytes }.
Notation accounts := (gmap bytes account).

(** read_only.rs:40-51 (and 117-133: [basic] is nonce and balance of the same). *)
Definition acc0 : account := Acc 0 0 ∅ NIL_CODE.
Definition get_account (m : accounts) (a : bytes) : account := default acc0 (m !! a).

(** ExecutorContext fields used here (protocol/src/types/executor.rs:52-79). *)
Record xctx := XCtx { c_number : N; c_origin : bytes; c_price : N; c_extra : list bytes }.

(** State of the executor adapter during a block and the global HARDFORK_INFO. *)
Record xstate := XState {
  xs_acc : accounts; xs_code : gmap bytes bytes; xs_logs : list log; xs_ctx : xctx;
  xs_meta : meta; xs_cells : trie; xs_hf : N }.
Definition set_acc (s : xstate) (m : accounts) : xstate :=
  XState m (xs_code s) (xs_logs s) (xs_ctx s) (xs_meta s) (xs_cells s) (xs_hf s).
(** save_account (apply.rs:132-140). *)
Definition save_account (s : xstate) (a : bytes) (x : account) : xstate := set_acc s (<[a := x]> (xs_acc s)).

(** Apply operations of the evm crate (evm::backend::Apply). *)
Inductive apply_op :=
| AModify (addr : bytes) (nonce balance : N) (code : option bytes) (storage : list (bytes * N)) (reset : bool)
| ADelete (addr : bytes).

(** storage writes (apply.rs:172-196): zero removes the slot. *)
Definition write_slots (m : gmap bytes N) (l : list (bytes * N)) : gmap bytes N :=
  fold_left (fun m kv => if snd kv =? 0 then delete (fst kv) m else <[fst kv := snd kv]> m) l m.

Section Exec.
  Variable keccak : bytes -> bytes.

  (** AxonExecutorApplyAdapter::apply (apply.rs:148-241): new account and whether it is empty.  The
      "empty" test compares the code hash with zero, never with NIL_DATA. *)
  Definition modify (s : xstate) (addr : bytes) (nonce balance : N) (code : option bytes)
      (storage : list (bytes * N)) (reset : bool) : xstate * bool :=
    let old := get_account (xs_acc s) addr in
    let st := write_slots (if reset then ∅ else a_storage old) storage in
    let (codes, ch) :=
      match code with
      | Some c => if beqb (keccak c) (a_code old) then (xs_code s, a_code old)
                  else (<[keccak c := c]> (xs_code s), keccak c)
      | None => (xs_code s, a_code old)
      end in
    let new := Acc nonce balance st ch in
    (XState (<[addr := new]> (xs_acc s)) codes (xs_logs s) (xs_ctx s) (xs_meta s) (xs_cells s) (xs_hf s),
     (balance =? 0) && (nonce =? 0) && (be_val ch =? 0)).

  (** ApplyBackend::apply (apply.rs:248-275). *)
  Definition apply_one (del : bool) (s : xstate) (op : apply_op) : xstate :=
    match op with
    | AModify a n b c st r =>
        let (s', empty) := modify s a n b c st r in
        if empty && del then set_acc s' (delete a (xs_acc s')) else s'
    | ADelete a => set_acc s (delete a (xs_acc s))
    end.
  Definition set_logs (s : xstate) (l : list log) : xstate :=
    XState (xs_acc s) (xs_code s) l (xs_ctx s) (xs_meta s) (xs_cells s) (xs_hf s).
  Definition apply_ops (s : xstate) (ops : list apply_op) (logs : list log) (del : bool) : xstate :=
    set_logs (fold_left (apply_one del) ops s) logs.

  (* ---------------- system contracts ---------------- *)
  (** mod.rs:38-60: the four addresses. *)
  Definition NATIVE : bytes := system_contract_address 0.
  Definition METADATA : bytes := system_contract_address 1.
  Definition CKB : bytes := system_contract_address 2.
  Definition IMAGE : bytes := system_contract_address 3.

  (** utils.rs:13-37; [gas_limit - 1] panics at 0. *)
  Definition revert_resp (gl : N) : outcome tx_resp :=
    if gl =? 0 then Panic else Ok (TxResp_ (XRevert 0) [] (gl - 1) 1 1 [] None false).
  Definition succeed_resp (gl : N) : tx_resp := TxResp_ (XSucceed 0) [] 0 gl 0 [] None false.

  (** A system contract's answer: the state and the response. *)
  Definition reverting (s : xstate) (gl : N) : outcome (xstate * tx_resp) :=
    match revert_resp gl with Ok r => Ok (s, r) | _ => Panic end.

  (** native_token.rs:17-57. *)
  Definition native_exec (s : xstate) (t : stx) : outcome (xstate * tx_resp) :=
    let u := unsigned_of t in
    let gl := gas_limit u in
    match tx_data u with
    | d :: rest =>
        if (len (tx_data u) <? 21) || (1 <? d) then reverting s gl
        else
          let l2 := firstn 20 rest in
          let acc := get_account (xs_acc s) l2 in
          let finish b :=
            if U256_MOD <=? a_nonce acc + 1 then Panic
            else Ok (apply_ops s [AModify l2 (a_nonce acc + 1) b None [] false] [] false, succeed_resp gl) in
          if d =? 0 then
            if U256_MOD <=? a_balance acc + tx_value u then Panic else finish (a_balance acc + tx_value u)
          else if a_balance acc <? tx_value u then reverting s gl
          else finish (a_balance acc - tx_value u)
    | [] => reverting s gl
    end.

  (** update_states (utils.rs:39-62): touch the contracts that hold the root, then raise the sender's
      nonce.  Both records are read before either is written. *)
  Definition touch (s : xstate) (a : bytes) : apply_op :=
    let acc := get_account (xs_acc s) a in AModify a (a_nonce acc) (a_balance acc) None [] false.
  Definition update_states (s : xstate) (sender : bytes) (contracts : list bytes) : outcome xstate :=
    let acc := get_account (xs_acc s) sender in
    if U256_MOD <=? a_nonce acc + 1 then Panic
    else Ok (apply_ops s (map (touch s) contracts ++ [AModify sender (a_nonce acc + 1) (a_balance acc) None [] false]) [] false).

  (** Metadata contract calls (metadata_abi) after ABI decoding. *)
  Inductive meta_call := McAppend (md : metadata) | McCkb (i : bytes) | McConfig (c : config).
  Variable meta_abi : bytes -> option meta_call.

  Definition set_meta (s : xstate) (m : meta) : xstate :=
    XState (xs_acc s) (xs_code s) (xs_logs s) (xs_ctx s) m (xs_cells s) (xs_hf s).

  (** metadata/mod.rs:48-107. *)
  Definition metadata_exec (s : xstate) (t : stx) : outcome (xstate * tx_resp) :=
    let u := unsigned_of t in
    let gl := gas_limit u in
    let allowed :=
      if c_number (xs_ctx s) =? 0 then Ok true else is_validator (xs_meta s) (c_number (xs_ctx s)) (s_sender t) in
    match allowed with
    | Panic => Panic
    | Err | Ok false => reverting s gl
    | Ok true =>
        let res :=
          match meta_abi (tx_data u) with
          | None => Err
          | Some (McAppend md) => append_metadata (xs_hf s) (xs_meta s) md
          | Some (McCkb i) => Ok (set_ckb_related_info (xs_meta s) i)
          | Some (McConfig c) => Ok (update_consensus_config (xs_hf s) (xs_meta s) c)
          end in
        match res with
        | Panic => Panic
        | Err => reverting s gl
        | Ok m => match update_states (set_meta s m) (s_sender t) [METADATA] with
                  | Ok s' => Ok (s', succeed_resp gl) | _ => Panic end
        end
    end.

  (** The CKB light client and image cell contracts (ckb_light_client/mod.rs:40-90,
      image_cell/mod.rs:40-100) over CellModel; headers are opaque. *)
  Context {hdr : Type} (hdr_hash : hdr -> bytes) (henc : hdr -> bytes).
  Variable ckb_abi image_abi : bytes -> option (@cell_call hdr).

  Definition cells_exec (abi : bytes -> option (@cell_call hdr)) (s : xstate) (t : stx) : outcome (xstate * tx_resp) :=
    let u := unsigned_of t in
    match cell_exec hdr_hash henc (xs_cells s) (abi (tx_data u)) with
    | (_, false) => reverting s (gas_limit u)
    | (c, true) =>
        let s1 := XState (xs_acc s) (xs_code s) (xs_logs s) (xs_ctx s) (xs_meta s) c (xs_hf s) in
        match update_states s1 (s_sender t) [CKB; IMAGE] with
        | Ok s' => Ok (s', succeed_resp (gas_limit u)) | _ => Panic end
    end.

  (** system_contract_dispatch (mod.rs:217-236). *)
  Definition dispatch (s : xstate) (t : stx) : option (outcome (xstate * tx_resp)) :=
    match tx_to (unsigned_of t) with
    | Some a =>
        if beqb a NATIVE then Some (native_exec s t)
        else if beqb a METADATA then Some (metadata_exec s t)
        else if beqb a CKB then Some (cells_exec ckb_abi s t)
        else if beqb a IMAGE then Some (cells_exec image_abi s t)
        else None
    | None => None
    end.

  (* ---------------- EVM ---------------- *)
  (** Result of the interpreter (evm crate): [eo_remain] is gas(), [eo_used] is used_gas(). *)
  Record evm_out := EvmOut {
    eo_exit : exit_reason; eo_ret : bytes; eo_remain : N; eo_used : N;
    eo_values : list apply_op; eo_logs : list log }.
  (** The interpreter, given the state after the prepayment, the contract size limit and the transaction. *)
  Variable evm : xstate -> N -> stx -> evm_out.

  Definition is_succeed (x : exit_reason) : bool := match x with XSucceed _ => true | _ => false end.

  (** code_address (executor utils.rs:44-49). *)
  Definition code_address (sender : bytes) (n : N) : bytes := keccak (enc_list [enc_hash sender; enc_uint n]).

  Definition add_sat (a b : N) : N := if a + b <? U256_MOD then a + b else U256_MOD - 1.

  (** evm_exec (lib.rs:296-393).  [N] subtraction saturates as saturating_sub does. *)
  Definition evm_exec (limit : N) (s : xstate) (t : stx) : outcome (xstate * tx_resp) :=
    let u := unsigned_of t in
    let sender := s_sender t in
    let price := c_price (xs_ctx s) in
    let gl := gas_limit u in
    let acc := get_account (xs_acc s) sender in
    let s1 := save_account s sender (Acc (a_nonce acc) (a_balance acc - price * gl) (a_storage acc) (a_code acc)) in
    let o := evm s1 limit t in
    let s2 := if is_succeed (eo_exit o) then apply_ops s1 (eo_values o) (eo_logs o) true else s1 in
    if U256_MOD <=? a_nonce acc + 1 then Panic
    else
      let acc2 := get_account (xs_acc s2) sender in
      let bal := if eo_remain o =? 0 then a_balance acc2 else add_sat (a_balance acc2) (eo_remain o * price) in
      let s3 := save_account s2 sender (Acc (a_nonce acc + 1) bal (a_storage acc2) (a_code acc2)) in
      let ca := match tx_action u with
                | Create => if is_succeed (eo_exit o) then Some (code_address sender (a_nonce acc)) else None
                | Call _ => None end in
      Ok (s3, TxResp_ (eo_exit o) (eo_ret o) (eo_used o) (eo_remain o) (price * eo_used o) [] ca false).

  (* ---------------- the block loop ---------------- *)
  (** Body of the loop (lib.rs:148-156); set_gas_price takes the low 64 bits of a U64. *)
  Definition exec_tx (limit : N) (s : xstate) (t : stx) : outcome (xstate * tx_resp) :=
    let c := xs_ctx s in
    let s0 := XState (xs_acc s) (xs_code s) (xs_logs s)
                (XCtx (c_number c) (s_sender t) (gas_price (unsigned_of t)) (c_extra c))
                (xs_meta s) (xs_cells s) (xs_hf s) in
    let r := match dispatch s0 t with Some r => r | None => evm_exec limit s0 t end in
    match r with
    | Ok (s', x) =>
        Ok (set_logs s' [],
            TxResp_ (x_exit x) (x_ret x) (x_gas_used x) (x_remain_gas x) (x_fee_cost x) (xs_logs s')
              (x_code_address x) (x_removed x))
    | _ => Panic
    end.

  (** The loop (lib.rs:148-166): u64 gas addition panics on overflow, fees saturate. *)
  Fixpoint exec_loop (limit : N) (s : xstate) (txs : list stx) (gas fee : N) : outcome (xstate * list tx_resp * N * N) :=
    match txs with
    | [] => Ok (s, [], gas, fee)
    | t :: r =>
        match exec_tx limit s t with
        | Ok (s', x) =>
            if U64_MAX <? gas + x_gas_used x then Panic
            else match exec_loop limit s' r (gas + x_gas_used x) (add_sat fee (x_fee_cost x)) with
                 | Ok (sf, xs, g, f) => Ok (sf, x :: xs, g, f)
                 | _ => Panic
                 end
        | _ => Panic
        end
    end.

  (** DefaultFeeAllocator::allocate (utils.rs:20-42): the u32 sum and the division may panic. *)
  Definition allocate (number fee : N) (vals : list validator) : outcome (list (bytes * N)) :=
    if (fee =? 0) || (number =? 0) then Ok []
    else
      let total := fold_left N.add (map v_weight vals) 0 in
      if 2^32 <=? total then Panic
      else match vals with
           | [] => Ok []
           | _ => if total =? 0 then Panic
                  else Ok (map (fun v => (v_address v, (fee / total) * v_weight v)) vals)
           end.

  (** Crediting (lib.rs:174-180). *)
  Fixpoint credit (m : accounts) (l : list (bytes * N)) : outcome accounts :=
    match l with
    | [] => Ok m
    | (a, amount) :: r =>
        if amount =? 0 then credit m r
        else
          let acc := get_account m a in
          if U256_MOD <=? a_balance acc + amount then Panic
          else credit (<[a := Acc (a_nonce acc) (a_balance acc + amount) (a_storage acc) (a_code acc)]> m) r
    end.

  (** config (lib.rs:409-424): the contract size limit, from the store when Andromeda is active. *)
  Definition contract_limit (s : xstate) : outcome N :=
    if enabled ANDROMEDA (xs_hf s)
    then match get_consensus_config (xs_meta s) with Ok c => Ok (cf_max_contract c) | _ => Panic end
    else Ok default_max_contract_limit.

  (** exec (lib.rs:130-208).  before_block_hook does nothing; after_block_hook only concerns
      the metadata contract (metadata/mod.rs:109-137). *)
  Definition exec_block (s : xstate) (txs : list stx) (vals : list validator)
      : outcome (xstate * N * list tx_resp) :=
    let number := c_number (xs_ctx s) in
    match contract_limit s with
    | Ok limit =>
        match exec_loop limit s txs 0 0 with
        | Ok (s1, rs, gas, fee) =>
            match (if number =? 0 then Ok [] else allocate number fee vals) with
            | Ok l =>
                match credit (xs_acc s1) l with
                | Ok m =>
                    let s2 := set_acc s1 m in
                    match meta_after_block (xs_meta s2) (xs_hf s2) number (c_origin (xs_ctx s2)) (c_extra (xs_ctx s2)) with
                    | Ok (mm, hf) =>
                        let s3 := XState (xs_acc s2) (xs_code s2) (xs_logs s2) (xs_ctx s2) mm (xs_cells s2) hf in
                        Ok (if number =? 0 then s3 else apply_ops s3 [touch s3 METADATA] [] false, gas, rs)
                    | _ => Panic
                    end
                | _ => Panic
                end
            | _ => Panic
            end
        | _ => Panic
        end
    | _ => Panic
    end.
End Exec.
