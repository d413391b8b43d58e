(** The JSON-RPC servers of a node, what it tells about itself, and the progress of synchronisation that it reports.
    Models /repo/core/api/src/jsonrpc/mod.rs (29-316), impl/node.rs (28-118), error.rs (11-95), web3_types.rs (648-690) and SYNC_STATUS of
    /repo/core/consensus/src/synchronization.rs (20-22, 36-97, 150-205, 533-565) over the node of ConsensusModel.
    jsonrpsee 0.20.3 is not in /repo.  What is taken from it: the settings of a new ServerBuilder (10 MiB for requests and for answers, 100
    connections), that registering or merging a name that is already there fails, that a request or an answer longer than its limit is
    replaced by an error, and that methods are found by their exact name.  Left out: batches, the forms of requests and parameters (JsonModel),
    CORS, and the subscriptions to blocks and logs (ApiModel). *)
From Verif Require Import Bytes Rlp TxModel WalModel StorageModel BlockModel HexModel VersionModel Keccak ConsensusModel.
From stdpp Require Import base gmap list strings.
Local Open Scope N_scope.

(* ---------------- methods ---------------- *)
(** A module of methods: the name on the wire and the Rust function behind it. *)
Definition methods := list (string * string).
Definition lookup_method (m : methods) (name : string) : option string :=
  match List.find (fun e => bool_decide (e.1 = name)) m with Some e => Some e.2 | None => None end.
(** Methods::merge of jsonrpsee: all names are checked before any is added. *)
Definition merge_methods (a b : methods) : option methods :=
  if existsb (fun e => match lookup_method a e.1 with Some _ => true | None => false end) b then None else Some (a ++ b).

(** trait Web3Rpc (mod.rs 29-157). *)
Definition web3_rpc : methods := [
  ("eth_sendRawTransaction", "send_raw_transaction"); ("eth_getTransactionByHash", "get_transaction_by_hash");
  ("eth_getBlockByNumber", "get_block_by_number"); ("eth_getBlockByHash", "get_block_by_hash"); ("eth_blockNumber", "block_number");
  ("eth_getTransactionCount", "get_transaction_count"); ("eth_getBlockTransactionCountByNumber", "get_block_transaction_count_by_number");
  ("eth_getBalance", "get_balance"); ("eth_call", "call"); ("eth_estimateGas", "estimate_gas"); ("eth_getCode", "get_code");
  ("eth_getTransactionReceipt", "get_transaction_receipt"); ("eth_gasPrice", "gas_price"); ("eth_getLogs", "get_logs");
  ("eth_feeHistory", "fee_history"); ("eth_accounts", "accounts");
  ("eth_getBlockTransactionCountByHash", "get_block_transaction_count_by_hash");
  ("eth_getTransactionByBlockHashAndIndex", "get_transaction_by_block_hash_and_index");
  ("eth_getTransactionByBlockNumberAndIndex", "get_transaction_by_block_number_and_index"); ("net_peerCount", "peer_count");
  ("eth_getStorageAt", "get_storage_at"); ("eth_protocolVersion", "protocol_version");
  ("eth_getUncleByBlockHashAndIndex", "get_uncle_by_block_hash_and_index");
  ("eth_getUncleByBlockNumberAndIndex", "get_uncle_by_block_number_and_index");
  ("eth_getUncleCountByBlockHash", "get_uncle_count_by_block_hash"); ("eth_getUncleCountByBlockNumber", "get_uncle_count_by_block_number");
  ("eth_getProof", "get_proof")]%string.
(** trait Web3Filter (159-175). *)
Definition filter_rpc : methods := [
  ("eth_newFilter", "new_filter"); ("eth_newBlockFilter", "block_filter"); ("eth_getFilterLogs", "get_filter_logs");
  ("eth_getFilterChanges", "get_filter_changes"); ("eth_uninstallFilter", "uninstall_filter")]%string.
(** trait AxonNodeRpc (177-214); the name of submit_work ends in a space (203). *)
Definition node_rpc : methods := [
  ("eth_chainId", "chain_id"); ("net_version", "net_version"); ("web3_clientVersion", "client_version"); ("net_listening", "listening");
  ("eth_syncing", "syncing"); ("eth_mining", "mining"); ("eth_coinbase", "coinbase"); ("eth_hashrate", "hashrate");
  ("eth_submitWork ", "submit_work"); ("eth_submitHashrate", "submit_hashrate"); ("web3_sha3", "sha3"); ("pprof", "pprof")]%string.
(** trait AxonRpc (216-238). *)
Definition axon_rpc : methods := [
  ("axon_getBlockById", "get_block_by_id"); ("axon_getProofById", "get_proof_by_id"); ("axon_getMetadataByNumber", "get_metadata_by_number");
  ("axon_getProposalByNumber", "get_proposal_by_number"); ("axon_getCurrentMetadata", "get_current_metadata");
  ("axon_getCkbRelatedInfo", "get_ckb_related_info"); ("axon_getHardforkInfo", "hardfork_infos")]%string.
(** trait CkbLightClientRpc (240-251). *)
Definition ckb_rpc : methods := [("ckb_getBlockHeaderByHash", "get_block_header_by_hash"); ("ckb_getLiveCell", "get_cell_info")]%string.
(** ws_subscription_module (ws_subscription.rs 27-47): register_subscription adds both names. *)
Definition subscription_rpc : methods := [("eth_subscribe", "subscription_callback"); ("eth_unsubscribe", "unsubscribe")]%string.

(* ---------------- servers ---------------- *)
(** ConfigApi (common/config-parser/src/types/config.rs 179-186) without enable_dump_profile; an address is a number here. *)
Record api_config := ApiConfig { ac_http : option N; ac_ws : option N; ac_maxconn : N; ac_max_payload : N }.
(** The settings of a server that matter here. *)
Record server := Server { sv_addr : N; sv_http : bool; sv_ws : bool; sv_request : N; sv_response : N; sv_conns : N; sv_methods : methods }.
(** ServerBuilder::new and its setters (jsonrpsee-server 0.20.3, server.rs). *)
Definition TEN_MB : N := 10485760.
Definition builder : server := Server 0 true true TEN_MB TEN_MB 100 [].
Definition http_only (s : server) : server := Server (sv_addr s) true false (sv_request s) (sv_response s) (sv_conns s) (sv_methods s).
Definition ws_only (s : server) : server := Server (sv_addr s) false true (sv_request s) (sv_response s) (sv_conns s) (sv_methods s).
Definition max_request_body_size (n : N) (s : server) : server := Server (sv_addr s) (sv_http s) (sv_ws s) n (sv_response s) (sv_conns s) (sv_methods s).
Definition max_response_body_size (n : N) (s : server) : server := Server (sv_addr s) (sv_http s) (sv_ws s) (sv_request s) n (sv_conns s) (sv_methods s).
Definition max_connections (n : N) (s : server) : server := Server (sv_addr s) (sv_http s) (sv_ws s) (sv_request s) (sv_response s) n (sv_methods s).
Definition start_at (addr : N) (m : methods) (s : server) : server := Server addr (sv_http s) (sv_ws s) (sv_request s) (sv_response s) (sv_conns s) m.

(** The merged methods (mod.rs 262-279); a failing merge is unwrapped. *)
Definition merged : option methods :=
  match merge_methods web3_rpc node_rpc with
  | Some m => match merge_methods m axon_rpc with
              | Some m => match merge_methods m filter_rpc with Some m => merge_methods m ckb_rpc | None => None end
              | None => None
              end
  | None => None
  end.
(** run_jsonrpc_server (253-316): both servers, [bind] telling which addresses can be listened on. *)
Definition run_servers (c : api_config) (bind : N -> bool) : outcome (option server * option server) :=
  match merged with
  | None => Panic
  | Some rpc =>
      let http a := start_at a rpc (max_connections (ac_maxconn c) (max_response_body_size (ac_max_payload c)
                      (max_request_body_size (ac_max_payload c) (http_only builder)))) in
      let ws a m := start_at a m (max_connections (ac_maxconn c) (max_request_body_size (ac_max_payload c)
                      (max_request_body_size (ac_max_payload c) (ws_only builder)))) in
      match (match ac_http c with None => Ok None | Some a => if bind a then Ok (Some (http a)) else Err end) with
      | Ok h =>
          match ac_ws c with
          | None => Ok (h, None)
          | Some a => if bind a then match merge_methods rpc subscription_rpc with Some m => Ok (h, Some (ws a m)) | None => Panic end else Err
          end
      | Err => Err | Panic => Panic
      end
  end.

(** One call over a new connection while [open] others are open: [answer f] is the whole answer that the function [f] leads to. *)
Inductive reply := RBusy | RRequestTooBig | RNotFound | RAnswerTooBig | RAnswer (b : bytes).
Definition serve (s : server) (open : N) (request : bytes) (name : string) (answer : string -> bytes) : reply :=
  if sv_conns s <=? open then RBusy
  else if sv_request s <? len request then RRequestTooBig
  else match lookup_method (sv_methods s) name with
       | None => RNotFound
       | Some f => if sv_response s <? len (answer f) then RAnswerTooBig else RAnswer (answer f)
       end.

(* ---------------- errors ---------------- *)
(** RpcError (error.rs 11-59) without the values carried. *)
Inductive rpc_error := DecodeInteroperationSigR | DecodeInteroperationSigS | InvalidAddressSource | MissingDummyInputCell | CannotFindImageCell
| GasPriceIsZero | GasPriceIsTooLarge | GasLimitIsTooLow | GasLimitIsTooLarge | TransactionIsNotSigned | CannotGetLatestBlock | InvalidBlockHash
| InvalidFromBlockNumber | InvalidBlockRange | InvalidNewestBlock | InvalidPosition | CannotFindBlock | InvalidRewardPercentiles
| InvalidFromBlockAndToBlockUnion | CannotFindFilterId | CallSystemContract | EvmError | Internal.
(** RpcError::code (67-95). *)
Definition error_code (e : rpc_error) : Z :=
  match e with
  | DecodeInteroperationSigR => -40001 | DecodeInteroperationSigS => -40002 | InvalidAddressSource => -40003 | MissingDummyInputCell => -40004
  | CannotFindImageCell => -40005 | GasPriceIsZero => -40006 | GasPriceIsTooLarge => -40007 | GasLimitIsTooLow => -40008
  | GasLimitIsTooLarge => -40009 | TransactionIsNotSigned => -40011 | CannotGetLatestBlock => -40013 | InvalidBlockHash => -40014
  | InvalidFromBlockNumber => -40015 | InvalidBlockRange => -40016 | InvalidNewestBlock => -40017 | InvalidPosition => -40018
  | CannotFindBlock => -40019 | InvalidRewardPercentiles => -40020 | InvalidFromBlockAndToBlockUnion => -40021 | CannotFindFilterId => -40022
  | CallSystemContract => -40023 | EvmError => -49998 | Internal => -49999
  end%Z.

(* ---------------- the node about itself ---------------- *)
(** chain_id (node.rs 28-30) as the text of a quantity, and net_version (32-34) in decimal digits; both read CHAIN_ID
    (protocol/src/lazy.rs 7), which is set from the header of the latest block (run/lib.rs 412). *)
Definition chain_id_text (chain_id : N) : text := serialize_uint chain_id.
Definition net_version_text (chain_id : N) : text := show_num chain_id.
(** sha3 (116-118) on the text of its parameter; None: the parameter is refused. *)
Definition web3_sha3 (t : text) : option text :=
  match hex_from_str t with Some b => Some (P0x ++ hex_encode (keccak256 b)) | None => None end.

(* ---------------- progress of synchronisation ---------------- *)
(** SyncStatus (synchronization.rs 533-542). *)
Inductive sync_status := NotSyncing | Syncing (start current highest : N).
(** start (545-551), finish (553-555), add_one (557-565). *)
Definition ss_start (start highest : N) : sync_status := Syncing start start highest.
Definition ss_add_one (s : sync_status) : sync_status :=
  match s with NotSyncing => NotSyncing | Syncing a c h => Syncing a (c + 1) h end.
(** What eth_syncing answers (Web3SyncStatus, web3_types.rs 648-690): false, or an object of five quantities. *)
Inductive sync_answer := AFalse | AObject (fields : list (string * text)).
Definition eth_syncing (s : sync_status) : sync_answer :=
  match s with
  | NotSyncing => AFalse
  | Syncing a c h => AObject [("startingBlock", serialize_uint a); ("currentBlock", serialize_uint c); ("highestBlock", serialize_uint h);
                              ("knownStates", serialize_uint 0); ("pulledStates", serialize_uint 0)]%string
  end.

(** The part of Subscription::notify (ws_subscription.rs 102-207) for subscriptions to syncing: [cur] is the number of the latest block when
    the tick before ran to its end, [latest] that of now; the messages are those handed to SubscriptionSink::send (whose futures are dropped,
    see C64).  Closed sinks are those not in [hubs]. *)
Definition notify_syncing (cur latest : N) (hubs : list N) (s : sync_status) : N * list (N * sync_answer) :=
  if cur =? latest then (cur, []) else (latest, map (fun h => (h, eth_syncing s)) hubs).
Fixpoint ticks (cur : N) (hubs : list N) (l : list (N * sync_status)) : list (N * sync_answer) :=
  match l with [] => [] | (latest, s) :: r => let '(cur', ms) := notify_syncing cur latest hubs s in ms ++ ticks cur' hubs r end.
(** HexIdProvider::next_id (ws_subscription.rs 318-325): the [n]th identifier of a process; the counter wraps at 2^64. *)
Definition subscription_id (n : N) : text := hex_text (be_fixed 32 (n mod 2 ^ 64)).

Section Watch.
  Variable P : params.
  (** SYNC_STATUS after the step [e] of node [n].  [updated] tells whether the calls inside update_status succeed in which a run ends
      (502-529): the metadata of the next block and the message to the consensus engine.  When they do not, the question mark returns
      before finish is called (80-82, 93-94), although the guards are dropped. *)
  Definition watch (n : node P) (s : sync_status) (e : event P) (updated : bool) : sync_status :=
    let over := if updated then NotSyncing else s in
    match e with
    | VTask _ k i =>
        match nd_tasks P n !! k with
        | Some (TLock r) =>
            let cur := st_last (nd_status P n) in
            if nd_commit_lock P n then s
            else if r <=? cur then s
            else if U64 <=? cur + ONCE_SYNC_BLOCK_LIMIT then s
            else ss_start cur (if r <? cur + ONCE_SYNC_BLOCK_LIMIT then r else cur + ONCE_SYNC_BLOCK_LIMIT)
        | Some (TRun r cur target agent) =>
            if cur <? target then
              match i with
              | Some i => match sync_plan P n cur agent i with Ok _ => ss_add_one s | _ => over end
              | None => over
              end
            else over
        | _ => s
        end
    | _ => s
    end.
End Watch.
