(** The answering side of synchronisation.
    Models the three pull handlers of /repo/core/consensus/src/message.rs (221-342) and what a node broadcasts as its height
    (/repo/core/consensus/src/synchronization.rs 119-129), over the storage of StorageModel and the node of ConsensusModel.
    Simplifications: errors carry no message; the transport between the two nodes is left out (the codecs of blocks, proofs and transactions are
    those of BlockModel and TxModel, the calls those of NetModel); that reading fills caches is left out (a node's history may contain reads). *)
From Verif Require Import Bytes Rlp TxModel WalModel StorageModel BlockModel ConsensusModel.
From stdpp Require Import base gmap list.
Local Open Scope N_scope.

Section Sync.
  Variable P : params.

  (** PullBlockRpcHandler::process (244-257). *)
  Definition serve_block (s : sstate (I P)) (n : N) : outcome BlockModel.block :=
    match (get_block (I P) s n).2 with Ok (Some b) => Ok b | Ok None => Err | Err => Err | Panic => Panic end.
  (** PullProofRpcHandler::process (282-308). *)
  Definition serve_proof (s : sstate (I P)) (n : N) : outcome BlockModel.proof :=
    match get_latest_proof (I P) s with
    | Ok lp =>
        if n <? pf_number lp then
          match (get_block_header (I P) s (n + 1)).2 with Ok (Some h) => Ok (h_proof h) | Ok None => Err | Err => Err | Panic => Panic end
        else if n =? pf_number lp then Ok lp else Err
    | Err => Err | Panic => Panic
    end.
  (** PullTxsRpcHandler::process (328-342): hashes without a transaction are left out of the answer. *)
  Definition serve_txs (s : sstate (I P)) (n : N) (hs : list bytes) : outcome (list (stx P)) :=
    match get_transactions (I P) s n hs with Ok l => Ok (omap id l) | Err => Err | Panic => Panic end.

  (** What the fetching side of one iteration of start_sync gets from a peer with store [s] (adapter.rs 105-112, 190-219): nothing at all
      when the block or its proof is refused. *)
  Definition fetched (s : sstate (I P)) (n : N) (mem : bytes -> option (stx P)) (chunk : nat) : option (fetch_input P) :=
    match serve_block s n, serve_proof s n with
    | Ok b, Ok pf => Some (FetchIn P b mem (serve_txs s n) chunk pf)
    | _, _ => None
    end.

  (** polling_broadcast (119-129): the height a node tells its peers, if any. *)
  Definition advertised (n : node P) : option N :=
    let c := pf_number (st_proof (nd_status P n)) in if c =? 0 then None else Some c.
End Sync.
