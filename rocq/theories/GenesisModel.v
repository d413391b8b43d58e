(** `axon init` and the first part of `axon run`.
    Models /repo/core/run/src/lib.rs 52-114 (init, run), 141-143, 203-225, 238-251, 306, 396-416 (what start reads), 418-435, 451-528
    (execute_genesis), /repo/core/run/src/components/chain_spec.rs 13-23, components/storage.rs 58-105 (save_block, insert_accounts),
    /repo/common/config-parser/src/types/spec.rs 203-223 (build_header, generate_hardfork_info),
    /repo/protocol/src/types/primitive.rs 308-345, 555-567 (SpecMetadata and validators of the chain spec) and
    /repo/core/executor/src/system_contract/mod.rs 126-201 (init).
    Simplifications: the state trie is a map (ExecModel), so the state root is an opaque function of the state; of the database only
    what start reads is kept; database errors are not modelled.  The address of a public key (from_pubkey_bytes) is an oracle. *)
From Verif Require Import Bytes Rlp TxModel BlockModel BloomModel CellModel MetaModel ExecModel HardforkModel.
From stdpp Require Import base gmap.
Local Open Scope N_scope.

(** Validator (primitive.rs 505-526): the chain spec gives no address. *)
Record sval := SVal { sv_bls : bytes; sv_pub : bytes; sv_propose : N; sv_weight : N }.
(** ChainSpec (spec.rs 22-48) and SpecMetadata (primitive.rs 308-321). *)
Record spec := Spec_ {
  sp_timestamp : N; sp_hardforks : list hf_name; sp_base_fee : N; sp_chain_id : N;
  sp_accounts : list (bytes * N);
  sp_start : N; sp_end : N; sp_epoch : N; sp_validators : list sval; sp_config : config }.

(** RLP_NULL, RLP_EMPTY_LIST (primitive.rs 35-46). *)
Definition RLP_NULL : bytes := be_fixed 32 0x56e81f171bcc55a6ff8345e692c0f86e5b48e01b996cadc001622fb5e363b421.
Definition RLP_EMPTY_LIST : bytes := be_fixed 32 0x1dcc4de8dec75d7aab85b567b6ccd41ad312451b948a7413f0a142fd40d49347.
Definition zero32 : bytes := repeat 0 32.
Definition proof0 : proof := Proof_ 0 0 zero32 [] [].

(** build_header (spec.rs 203-213) with the roots that execute_genesis fills in (run/src/lib.rs 473-483). *)
Definition genesis_header (keccak : bytes -> bytes) (sp : spec) (root : bytes) : header :=
  Header_ V0 zero32 (repeat 0 20) root RLP_NULL RLP_EMPTY_LIST RLP_NULL (header_log_bloom keccak [])
    (sp_timestamp sp) 0 0 0 [] (sp_base_fee sp) proof0 0 (sp_chain_id sp).

(** What start reads from the data directory. *)
Record disk := Disk {
  d_dir : bool;                         (* the rocksdb directory exists *)
  d_state : option xstate;              (* the state under the genesis state root *)
  d_proof : option proof;               (* LATEST_PROOF_KEY *)
  d_block0 : option BlockModel.block;              (* block 0 *)
  d_latest : option BlockModel.block }.            (* LATEST_BLOCK_KEY *)
Definition no_disk : disk := Disk false None None None None.

(** The writes of init in program order; the tries of the accounts and of the metadata are not under a root yet that anything names. *)
Inductive dwrite := WDir | WTries | WState (s : xstate) | WProof (p : proof) | WBlock (b : BlockModel.block) | WLatest (b : BlockModel.block).
Definition write (d : disk) (w : dwrite) : disk :=
  match w with
  | WDir => Disk true (d_state d) (d_proof d) (d_block0 d) (d_latest d)
  | WTries => d
  | WState s => Disk (d_dir d) (Some s) (d_proof d) (d_block0 d) (d_latest d)
  | WProof p => Disk (d_dir d) (d_state d) (Some p) (d_block0 d) (d_latest d)
  | WBlock b => Disk (d_dir d) (d_state d) (d_proof d) (Some b) (d_latest d)
  | WLatest b => Disk (d_dir d) (d_state d) (d_proof d) (d_block0 d) (Some b)
  end.

Section Genesis.
  Variable keccak : bytes -> bytes.
  Variable meta_abi : bytes -> option meta_call.
  Context {hdr : Type}.
  Variables hdr_hash hdr_enc : hdr -> bytes.
  Variables ckb_abi image_abi : bytes -> option (@cell_call hdr).
  Variable evm : xstate -> N -> stx -> evm_out.
  Variable root_of : xstate -> bytes.
  Variable address_of : bytes -> option bytes.

  (** From<Validator> for ValidatorExtend (primitive.rs 555-567): panics on a key that is none. *)
  Fixpoint extend (l : list sval) : outcome (list validator) :=
    match l with
    | [] => Ok []
    | v :: r =>
        match address_of (sv_pub v) with
        | None => Panic
        | Some a => match extend r with Ok r' => Ok (Val_ (sv_bls v) (sv_pub v) a (sv_propose v) (sv_weight v) :: r') | _ => Panic end
        end
    end.

  (** The two metadata (run/src/lib.rs 456-469). *)
  Definition metadata_01 (sp : spec) : outcome (metadata * metadata) :=
    let e := sp_end sp in
    if (sp_epoch sp =? U64_MAX) || (e =? U64_MAX) || (U64_MAX <? (e + 1) + e) then Panic
    else match extend (sp_validators sp) with
         | Ok vs => Ok (Metadata_ (Inner_ (sp_start sp) e (sp_epoch sp) vs []) (sp_config sp),
                        Metadata_ (Inner_ (e + 1) ((e + 1) + e - 1) (sp_epoch sp + 1) vs []) (sp_config sp))
         | _ => Panic
         end.

  (** insert_accounts (components/storage.rs 86-105). *)
  Definition insert_accounts (l : list (bytes * N)) : accounts :=
    fold_left (fun m e => <[e.1 := Acc 0 (e.2) ∅ NIL_CODE]> m) l ∅.

  (** The adapter of execute_genesis_transactions (503-512); the process is fresh, so HARDFORK_INFO is zero. *)
  Definition state0 (sp : spec) : xstate :=
    XState (insert_accounts (sp_accounts sp)) ∅ [] (XCtx 0 (repeat 0 20) 0 []) meta0 ∅ 0.

  (** system_contract::init (mod.rs 126-201): touches the light client and image accounts, appends the two metadata, sets the hardforks
      and touches the metadata account. *)
  Definition system_init (s : xstate) (md0 md1 : metadata) (hf : N) : outcome xstate :=
    let s1 := apply_ops keccak s [touch s CKB; touch s IMAGE] [] false in
    match append_metadata (xs_hf s1) (xs_meta s1) md0 with
    | Ok m0 =>
        match append_metadata (xs_hf s1) m0 md1 with
        | Ok m1 => let s2 := set_meta s1 (set_hardfork_info m1 0 hf) in Ok (apply_ops keccak s2 [touch s2 METADATA] [] false)
        | Err => Err
        | Panic => Panic
        end
    | Err => Err
    | Panic => Panic
    end.

  (** The writes that init makes and how it ends (run/src/lib.rs 52-79, 451-528). *)
  Definition init_writes (sp : spec) : list dwrite * outcome unit :=
    match metadata_01 sp with
    | Ok (md0, md1) =>
        match system_init (state0 sp) md0 md1 (input_flags (sp_hardforks sp)) with
        | Ok s =>
            match exec_block keccak meta_abi hdr_hash hdr_enc ckb_abi image_abi evm s [] [] with
            | Ok (s', _, _) =>
                let b := Block_ (genesis_header keccak sp (root_of s')) [] in
                ([WDir; WTries; WState s'; WProof proof0; WBlock b; WLatest b], Ok tt)
            | _ => ([WDir; WTries], Panic)
            end
        | Err => ([WDir; WTries], Err)
        | Panic => ([WDir; WTries], Panic)
        end
    | _ => ([WDir], Panic)
    end.
  Definition init (sp : spec) (d : disk) : disk * outcome unit :=
    if d_dir d then (d, Err) else (fold_left write (init_writes sp).1 d, (init_writes sp).2).
  (** init that stops after [k] writes. *)
  Definition init_cut (k : nat) (sp : spec) (d : disk) : disk :=
    if d_dir d then d else fold_left write (firstn k (init_writes sp).1) d.
End Genesis.

(** What run works with: start (run/src/lib.rs 141-143, 203-251, 396-449). *)
Record boot := Boot {
  bt_block : BlockModel.block; bt_number : N; bt_chain_id : N; bt_proof : proof;
  bt_hardfork : N;                      (* HARDFORK_INFO *)
  bt_validators : list (bytes * N * N); (* ConsensusValidator: key and weights *)
  bt_interval : N; bt_ratios : N * N * N * N;
  bt_gas_limit : N; bt_max_tx_size : N; bt_tx_num : N }.
Definition run (d : disk) : outcome boot :=
  if negb (d_dir d) then Err
  else match d_latest d with
       | None => Err
       | Some b =>
           match d_state d with
           | None => Err
           | Some s =>
               let n := h_number (b_header b) in
               match metadata_by_block (xs_meta s) n with
               | Ok md =>
                   match d_proof d with
                   | None => Err
                   | Some p =>
                       let c := cf_base (md_config md) in
                       Ok (Boot b n (h_chain_id (b_header b)) p (hardfork_info (xs_meta s) n)
                             (map (fun v => (v_pub v, v_propose v, v_weight v)) (mi_verifiers (md_inner md)))
                             (cf_interval c) (cf_propose c, cf_prevote c, cf_precommit c, cf_brake c)
                             (cf_gas_limit c) (cf_max_tx_size c) (cf_tx_num c))
                   end
               | Err => Err
               | Panic => Panic
               end
           end
       end.
