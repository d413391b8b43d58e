(** Log blooms and receipt generation.
    Models /repo/protocol/src/types/executor.rs:114-138 and types/block.rs:155-228.
    [digest] is [Hasher::digest]; a Bloom is 256 bytes, big endian. *)
From Verif Require Import Bytes Rlp TxModel BlockModel.

Definition BLOOM_BYTE_LENGTH : nat := 256.
Definition bloom_zero : bytes := repeat 0 BLOOM_BYTE_LENGTH.

(** [bloom.0[i] |= m] *)
Fixpoint or_at (b : bytes) (i : nat) (m : N) : bytes :=
  match b, i with
  | [], _ => []
  | x :: r, O => N.lor x m :: r
  | x :: r, S j => x :: or_at r j m
  end.

Section Bloom.
Variable digest : bytes -> bytes.

(** executor.rs:132-138; the digest always has 32 bytes, so the indexing cannot
    fail in the code; here a missing byte reads as 0. *)
Definition bloom_bit (hash : bytes) (i : nat) : N :=
  N.land (nth (i + 1) hash 0 + N.shiftl (nth i hash 0) 8) 0x7FF.
Definition set_bit (bloom : bytes) (bit : N) : bytes :=
  or_at bloom (BLOOM_BYTE_LENGTH - 1 - N.to_nat (bit / 8)) (N.shiftl 1 (bit mod 8)).
Definition m3_2048 (bloom : bytes) (x : bytes) : bytes :=
  let hash := digest x in
  fold_left (fun b i => set_bit b (bloom_bit hash i)) [0%nat; 2%nat; 4%nat] bloom.

(** executor.rs:116-130. *)
Definition add_log (bloom : bytes) (l : log) : bytes :=
  fold_left m3_2048 (lg_topics l) (m3_2048 bloom (lg_address l)).
Definition logs_bloom (logs : list log) : bytes := fold_left add_log logs bloom_zero.

(** [Bloom::from(BloomInput::Raw(x))] (ethbloom 0.13, [Bloom::accrue]): the same three bits,
    in a fresh bloom.  External crate; follows its published source. *)
Definition bloom_from_raw (x : bytes) : bytes := m3_2048 bloom_zero x.

(** block.rs:156-160 and 170-172: the header's bloom. *)
Definition header_log_bloom (resps : list tx_resp) : bytes :=
  bloom_from_raw (enc_list (map enc_hash
    (map (fun r => bloom_from_raw (enc_list (map enc_log (x_logs r)))) resps))).

(** Block::new, block.rs:155-190. *)
Record exec_resp := ExecResp_ {
  er_state_root : bytes; er_receipt_root : bytes; er_gas_used : N; er_tx_resp : list tx_resp }.
Definition block_new (p : proposal) (e : exec_resp) : block :=
  Block_ (Header_ (p_version p) (p_prev_hash p) (p_proposer p) (er_state_root e)
    (p_transactions_root p) (p_signed_txs_hash p) (er_receipt_root e)
    (header_log_bloom (er_tx_resp e)) (p_timestamp p) (p_number p) (er_gas_used e) (p_gas_limit p)
    (p_extra_data p) (p_base_fee p) (p_proof p) (p_call_system_script_count p) (p_chain_id p))
    (p_tx_hashes p).

(** Header::hash, block.rs:291-293. *)
Definition block_hash (b : block) : bytes := digest (enc_hdr (b_header b)).

(** generate_receipts_and_logs, block.rs:196-228.  The two fields of a signed transaction that are used are its
    hash and its sender.  [idx as u32] truncates; the addition to [log_index] panics on
    overflow ([overflow-checks = true]), [logs.len() as u32] truncates. *)
Fixpoint gen_receipts (b : block) (idx : N) (log_index : N)
    (txs : list (bytes * bytes)) (resps : list tx_resp) : outcome (list receipt) :=
  match txs, resps with
  | (h, s) :: txs', r :: resps' =>
      let rc := Receipt_ h (h_number (b_header b)) (block_hash b) (idx mod 2^32)
        (h_state_root (b_header b)) (x_gas_used r) (logs_bloom (x_logs r)) (x_logs r) log_index
        (x_code_address r) s (x_exit r) (x_removed r) in
      let next := log_index + N.of_nat (length (x_logs r)) mod 2^32 in
      if next <? 2^32 then
        match gen_receipts b (idx + 1) next txs' resps' with
        | Ok l => Ok (rc :: l)
        | Err => Err
        | Panic => Panic
        end
      else Panic
  | _, _ => Ok []
  end.
Definition generate_receipts_and_logs (b : block) (txs : list (bytes * bytes)) (e : exec_resp)
    : outcome (list receipt * list (list log)) :=
  match gen_receipts b 0 0 txs (er_tx_resp e) with
  | Ok rs => Ok (rs, map r_logs rs)
  | Err => Err
  | Panic => Panic
  end.
End Bloom.

(* ---------------- keys ---------------- *)
(** CommonPrefix / BlockKey, /repo/core/storage/src/hash_key.rs:6-71. *)
Definition prefix_key (height : N) : bytes := be_fixed 8 height.
Definition prefix_height (p : bytes) : N := be_val p.
(** [CommonPrefix::decode]: slices the first 8 bytes; panics when shorter. *)
Definition dec_prefix (b : bytes) : outcome bytes :=
  if (length b <? 8)%nat then Panic else Ok (firstn 8 b).

(** CommonHashKey, hash_key.rs:73-115: [make_hash_key] and [decode];
    [Hash::from_slice] panics unless exactly 32 bytes are left. *)
Record hash_key := HashKey { hk_prefix : bytes; hk_hash : bytes }.
Definition hash_key_new (height : N) (hash : bytes) : hash_key := HashKey (prefix_key height) hash.
Definition enc_hash_key (k : hash_key) : bytes := hk_prefix k ++ firstn 32 (hk_hash k).
Definition dec_hash_key (b : bytes) : outcome hash_key :=
  match dec_prefix b with
  | Ok p => let r := skipn 8 b in if (length r =? 32)%nat then Ok (HashKey p r) else Panic
  | _ => Panic
  end.
Definition hash_key_height (k : hash_key) : N := prefix_height (hk_prefix k).

(** CellKey, /repo/core/executor/src/system_contract/image_cell/store.rs:222-272. *)
Record cell_key := CellKey_ { ck_tx_hash : bytes; ck_index : N }.
Definition enc_cell_key (k : cell_key) : bytes := ck_tx_hash k ++ le_fixed 4 (ck_index k).
Definition dec_cell_key (b : bytes) : option cell_key :=
  if (length b =? 36)%nat
  then Some (CellKey_ (firstn 32 b) (le_val (firstn 4 (skipn 32 b)))) else None.
