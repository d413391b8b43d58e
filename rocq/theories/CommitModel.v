(** What the hash of a block stands for: the root of the transactions, the digest of the signed transactions, the root of the receipts.
    Models /repo/core/consensus/src/engine.rs 70-88 and 605-625 (transactions root), /repo/core/consensus/src/util.rs 19-25 (digest of the signed
    transactions), /repo/protocol/src/types/transaction.rs 494-516 (encode_receipt), /repo/core/executor/src/lib.rs 130-212 and 455-496 (receipt root) and
    /repo/common/merkle/src/lib.rs 56-104 (TrieMerkle, in TrieModel). *)
From Verif Require Import Bytes Rlp TxModel BlockModel BloomModel TrieModel.
From Coq Require Import NArith List.
Import ListNotations.
Local Open Scope N_scope.

(** RLP_NULL, RLP_EMPTY_LIST: /repo/protocol/src/types/primitive.rs 35-46. *)
Definition RLP_NULL : bytes :=
  [0x56; 0xe8; 0x1f; 0x17; 0x1b; 0xcc; 0x55; 0xa6; 0xff; 0x83; 0x45; 0xe6; 0x92; 0xc0; 0xf8; 0x6e;
   0x5b; 0x48; 0xe0; 0x1b; 0x99; 0x6c; 0xad; 0xc0; 0x01; 0x62; 0x2f; 0xb5; 0xe3; 0x63; 0xb4; 0x21].
Definition RLP_EMPTY_LIST : bytes :=
  [0x1d; 0xcc; 0x4d; 0xe8; 0xde; 0xc7; 0x5d; 0x7a; 0xab; 0x85; 0xb5; 0x67; 0xb6; 0xcc; 0xd4; 0x1a;
   0xd3; 0x12; 0x45; 0x1b; 0x94; 0x8a; 0x74; 0x13; 0xf0; 0xa1; 0x42; 0xfd; 0x40; 0xd4; 0x93; 0x47].

Section Commit.
  Variable keccak : bytes -> bytes.

  (** The root of a list of items: engine.rs 79-88 and 612-624, lib.rs 193-201 and 480-488.  A failure is a panic. *)
  Definition list_root (f : nat) (items : list bytes) : outcome bytes :=
    match items with
    | [] => Ok RLP_NULL
    | _ => match merkle_root keccak f items with Ok r => Ok r | _ => Panic end
    end.
  (** engine.rs 79-88: the items are the RLP encoded hashes (ProtocolCodec for H256, codec/mod.rs 24-27). *)
  Definition transactions_root (f : nat) (hashes : list bytes) : outcome bytes := list_root f (map enc_hash hashes).
  (** digest_signed_transactions, util.rs 19-25. *)
  Definition digest_signed_transactions (txs : list stx) : bytes :=
    match txs with [] => RLP_EMPTY_LIST | _ => keccak (enc_batch txs) end.
  (** encode_receipt, transaction.rs 494-516: the gas is that of the transaction itself. *)
  Definition receipt_status (x : exit_reason) : N := match x with XSucceed _ => 1 | _ => 0 end.
  Definition encode_receipt (u : unsigned) (r : tx_resp) (bloom : bytes) : bytes :=
    let legacy := enc_list [enc_uint (receipt_status (x_exit r)); enc_uint (x_gas_used r); enc_hash bloom; enc_list (map enc_log (x_logs r))] in
    let x := tx_type u in
    if (x =? 1) || (x =? 2) then x :: legacy else legacy.
  (** the receipts of the loop, lib.rs 160-162: one for each transaction that was executed *)
  Definition encode_receipts (txs : list stx) (rs : list tx_resp) : list bytes :=
    map (fun tr => encode_receipt (u_unsigned (s_tx (fst tr))) (snd tr) (logs_bloom keccak (x_logs (snd tr)))) (combine txs rs).
  Definition receipts_root (f : nat) (txs : list stx) (rs : list tx_resp) : outcome bytes := list_root f (encode_receipts txs rs).

  (** TrieMerkle: the tree of the items after [root_hash], and [get_proof_by_index] (merkle/src/lib.rs 84-95).  [rooted] says whether [root_hash] was called before. *)
  Definition get_proof_by_index (f : nat) (rooted : bool) (items : list bytes) (i : N) : outcome (list bytes) :=
    let! t := merkle_from f (trie_new (fun _ => None)) 0 items in
    if rooted then let! r := trie_root keccak t in trie_proof keccak f (snd r) (enc_uint i)
    else trie_proof keccak f t (enc_uint i).
End Commit.
