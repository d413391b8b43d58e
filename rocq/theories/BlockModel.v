(** Headers, blocks, proofs, proposals, logs, receipts and execution results
    with their RLP codecs.
    Models /repo/protocol/src/types/block.rs, codec/block.rs, types/receipt.rs,
    codec/receipt.rs, types/executor.rs, codec/executor.rs, types/batch.rs.
    Derived codecs ([RlpEncodable]/[RlpDecodable]) write one list with the
    fields in declaration order and read field i with [val_at(i)], or [list_at(i)]
    for [Vec]; they do not check the number of items. *)
From Verif Require Import Bytes Rlp.

(** types/block.rs:307-315. *)
Definition extra_data := bytes.
Definition enc_extra (e : extra_data) : bytes := enc_list [enc_str e].
Definition dec_extra (b : bytes) : option extra_data := val_at dec_value b 0.

(** types/block.rs:349-367. *)
Record proof := Proof_ {
  pf_number : N; pf_round : N; pf_block_hash : bytes; pf_signature : bytes; pf_bitmap : bytes }.
Definition proof_items (p : proof) : list bytes :=
  [enc_uint (pf_number p); enc_uint (pf_round p); enc_hash (pf_block_hash p);
   enc_str (pf_signature p); enc_str (pf_bitmap p)].
Definition enc_proof (p : proof) : bytes := enc_list (proof_items p).
Definition dec_proof (b : bytes) : option proof :=
  let? n := val_at (dec_uint 8) b 0 in
  let? r := val_at (dec_uint 8) b 1 in
  let? h := val_at (dec_hash 32) b 2 in
  let? s := val_at dec_value b 3 in
  let? m := val_at dec_value b 4 in
  Some (Proof_ n r h s m).

(** BlockVersion (types/block.rs:16-38, codec/block.rs:9-22): only V0 = 0. *)
Inductive version := V0.
Definition enc_version (v : version) : bytes := enc_list [enc_uint 0].
Definition dec_version (b : bytes) : option version :=
  let? n := val_at (dec_uint 1) b 0 in if n =? 0 then Some V0 else None.

(** types/block.rs:254-283. *)
Record header := Header_ {
  h_version : version; h_prev_hash : bytes; h_proposer : bytes; h_state_root : bytes;
  h_transactions_root : bytes; h_signed_txs_hash : bytes; h_receipts_root : bytes;
  h_log_bloom : bytes; h_timestamp : N; h_number : N; h_gas_used : N; h_gas_limit : N;
  h_extra_data : list extra_data; h_base_fee : N; h_proof : proof;
  h_call_system_script_count : N; h_chain_id : N }.
Definition header_items (h : header) : list bytes :=
  [enc_version (h_version h); enc_hash (h_prev_hash h); enc_hash (h_proposer h);
   enc_hash (h_state_root h); enc_hash (h_transactions_root h); enc_hash (h_signed_txs_hash h);
   enc_hash (h_receipts_root h); enc_hash (h_log_bloom h); enc_uint (h_timestamp h);
   enc_uint (h_number h); enc_uint (h_gas_used h); enc_uint (h_gas_limit h);
   enc_list (map enc_extra (h_extra_data h)); enc_uint (h_base_fee h); enc_proof (h_proof h);
   enc_uint (h_call_system_script_count h); enc_uint (h_chain_id h)].
Definition enc_hdr (h : header) : bytes := enc_list (header_items h).
Definition dec_hdr (b : bytes) : option header :=
  let? ve := val_at dec_version b 0 in
  let? ph := val_at (dec_hash 32) b 1 in
  let? pr := val_at (dec_hash 20) b 2 in
  let? sr := val_at (dec_hash 32) b 3 in
  let? tr := val_at (dec_hash 32) b 4 in
  let? st := val_at (dec_hash 32) b 5 in
  let? rr := val_at (dec_hash 32) b 6 in
  let? lb := val_at (dec_hash 256) b 7 in
  let? ti := val_at (dec_uint 8) b 8 in
  let? nu := val_at (dec_uint 8) b 9 in
  let? gu := val_at (dec_uint 8) b 10 in
  let? gl := val_at (dec_uint 8) b 11 in
  let? ed := val_at (dec_list dec_extra) b 12 in
  let? bf := val_at (dec_uint 8) b 13 in
  let? pf := val_at dec_proof b 14 in
  let? cs := val_at (dec_uint 4) b 15 in
  let? ci := val_at (dec_uint 8) b 16 in
  Some (Header_ ve ph pr sr tr st rr lb ti nu gu gl ed bf pf cs ci).

(** types/block.rs:149-152. *)
Record block := Block_ { b_header : header; b_tx_hashes : list bytes }.
Definition enc_block (b : block) : bytes :=
  enc_list [enc_hdr (b_header b); enc_list (map enc_hash (b_tx_hashes b))].
Definition dec_block (b : bytes) : option block :=
  let? h := val_at dec_hdr b 0 in
  let? t := val_at (dec_list (dec_hash 32)) b 1 in
  Some (Block_ h t).

(** BatchBlocks (types/batch.rs:3-35). *)
Definition enc_blocks (l : list block) : bytes := enc_list (map enc_block l).
Definition dec_blocks (b : bytes) : option (list block) := dec_list dec_block b.

(** types/block.rs:64-83. *)
Record proposal := Proposal_ {
  p_version : version; p_prev_hash : bytes; p_proposer : bytes; p_prev_state_root : bytes;
  p_transactions_root : bytes; p_signed_txs_hash : bytes; p_timestamp : N; p_number : N;
  p_gas_limit : N; p_extra_data : list extra_data; p_base_fee : N; p_proof : proof;
  p_chain_id : N; p_call_system_script_count : N; p_tx_hashes : list bytes }.

(** codec/block.rs:24-41: base fee and chain id are not written. *)
Definition proposal_items (p : proposal) : list bytes :=
  [enc_version (p_version p); enc_hash (p_prev_hash p); enc_hash (p_proposer p);
   enc_hash (p_prev_state_root p); enc_hash (p_transactions_root p);
   enc_hash (p_signed_txs_hash p); enc_uint (p_timestamp p); enc_uint (p_number p);
   enc_uint (p_gas_limit p mod 2^64); enc_list (map enc_extra (p_extra_data p));
   enc_proof (p_proof p); enc_uint (p_call_system_script_count p);
   enc_list (map enc_hash (p_tx_hashes p))].
Definition enc_proposal (p : proposal) : bytes := enc_list (proposal_items p).

(** BASE_FEE_PER_GAS (protocol/src/constants/mod.rs / configs.rs): 0x539. *)
Definition BASE_FEE_PER_GAS : N := 0x539.

(** codec/block.rs:43-63; [node_chain_id] is the node-global [CHAIN_ID]. *)
Definition dec_proposal (node_chain_id : N) (b : bytes) : option proposal :=
  let? ve := val_at dec_version b 0 in
  let? ph := val_at (dec_hash 32) b 1 in
  let? pr := val_at (dec_hash 20) b 2 in
  let? sr := val_at (dec_hash 32) b 3 in
  let? tr := val_at (dec_hash 32) b 4 in
  let? st := val_at (dec_hash 32) b 5 in
  let? ti := val_at (dec_uint 8) b 6 in
  let? nu := val_at (dec_uint 8) b 7 in
  let? gl := val_at (dec_uint 8) b 8 in
  let? ed := val_at (dec_list dec_extra) b 9 in
  let? pf := val_at dec_proof b 10 in
  let? cs := val_at (dec_uint 4) b 11 in
  let? th := val_at (dec_list (dec_hash 32)) b 12 in
  Some (Proposal_ ve ph pr sr tr st ti nu gl ed BASE_FEE_PER_GAS pf node_chain_id cs th).

(* ---------------- logs, receipts ---------------- *)
(** ethereum::Log (derived codec). *)
Record log := Log_ { lg_address : bytes; lg_topics : list bytes; lg_data : bytes }.
Definition log_items (l : log) : list bytes :=
  [enc_hash (lg_address l); enc_list (map enc_hash (lg_topics l)); enc_str (lg_data l)].
Definition enc_log (l : log) : bytes := enc_list (log_items l).
Definition dec_log (b : bytes) : option log :=
  let? a := val_at (dec_hash 20) b 0 in
  let? t := val_at (dec_list (dec_hash 32)) b 1 in
  let? d := val_at dec_value b 2 in
  Some (Log_ a t d).

(** evm::ExitReason with its bincode form (bincode 1.3.3, fixed-width little endian):
    a u32 variant index, then the variant's content.  The exact set of error variants
    belongs to the external crate; an error is modelled as its variant index with a payload
    that is empty, one byte (an opcode) or a string, and [shape] says which variants carry which
    payload (universally quantified in the theorems).  UTF-8 validation of the string is not
    modelled: every string that was serialised is valid. *)
Inductive xpayload := PUnit | PByte (b : N) | PStr (s : bytes).
Inductive xshape := SUnit | SByte | SStr.
Record xerr := XErr { xe_tag : N; xe_payload : xpayload }.
Inductive exit_reason :=
| XSucceed (kind : N)          (* Stopped 0 / Returned 1 / Suicided 2 *)
| XError (e : xerr)
| XRevert (kind : N)           (* Reverted 0 *)
| XFatal (tag : N)             (* NotSupported 0 / UnhandledInterrupt 1 *)
| XFatalErr (e : xerr)         (* CallErrorAsFatal, index 2 *)
| XFatalOther (s : bytes).     (* Other, index 3 *)

Definition u32le (n : N) : bytes := le_fixed 4 n.
Definition bc_str (s : bytes) : bytes := le_fixed 8 (len s) ++ s.
Definition ser_xerr (e : xerr) : bytes :=
  u32le (xe_tag e) ++
  match xe_payload e with PUnit => [] | PByte b => [b] | PStr s => bc_str s end.
Definition ser_exit (x : exit_reason) : bytes :=
  match x with
  | XSucceed k => u32le 0 ++ u32le k
  | XError e => u32le 1 ++ ser_xerr e
  | XRevert k => u32le 2 ++ u32le k
  | XFatal t => u32le 3 ++ u32le t
  | XFatalErr e => u32le 3 ++ u32le 2 ++ ser_xerr e
  | XFatalOther s => u32le 3 ++ u32le 3 ++ bc_str s
  end.

Definition take_le (k : nat) (b : bytes) : option (N * bytes) :=
  if (length b <? k)%nat then None else Some (le_val (firstn k b), skipn k b).
Definition take_str (b : bytes) : option bytes :=
  let? (n, r) := take_le 8 b in
  if len r <? n then None else Some (firstn (N.to_nat n) r).
Section Exit.
Variable shape : N -> option xshape.
Definition de_xerr (b : bytes) : option xerr :=
  let? (t, r) := take_le 4 b in
  let? sh := shape t in
  match sh with
  | SUnit => Some (XErr t PUnit)
  | SByte => match r with x :: _ => Some (XErr t (PByte x)) | [] => None end
  | SStr => let? s := take_str r in Some (XErr t (PStr s))
  end.
Definition de_exit (b : bytes) : option exit_reason :=
  let? (t, r) := take_le 4 b in
  match t with
  | 0 => let? (k, _) := take_le 4 r in if k <? 3 then Some (XSucceed k) else None
  | 1 => let? e := de_xerr r in Some (XError e)
  | 2 => let? (k, _) := take_le 4 r in if k <? 1 then Some (XRevert k) else None
  | 3 =>
      let? (k, r') := take_le 4 r in
      match k with
      | 0 => Some (XFatal 0)
      | 1 => Some (XFatal 1)
      | 2 => let? e := de_xerr r' in Some (XFatalErr e)
      | 3 => let? s := take_str r' in Some (XFatalOther s)
      | _ => None
      end
  | _ => None
  end.

(** types/receipt.rs:6-21, codec/receipt.rs. *)
Record receipt := Receipt_ {
  r_tx_hash : bytes; r_block_number : N; r_block_hash : bytes; r_tx_index : N;
  r_state_root : bytes; r_used_gas : N; r_logs_bloom : bytes; r_logs : list log;
  r_log_index : N; r_code_address : option bytes; r_sender : bytes; r_ret : exit_reason;
  r_removed : bool }.
Definition receipt_items (r : receipt) : list bytes :=
  [enc_hash (r_tx_hash r); enc_uint (r_block_number r); enc_hash (r_block_hash r);
   enc_uint (r_tx_index r); enc_hash (r_state_root r); enc_uint (r_used_gas r);
   enc_hash (r_logs_bloom r); enc_list (map enc_log (r_logs r)); enc_uint (r_log_index r);
   enc_option (option_map enc_hash (r_code_address r)); enc_hash (r_sender r);
   enc_str (ser_exit (r_ret r)); enc_bool (r_removed r)].
Definition enc_receipt (r : receipt) : bytes := enc_list (receipt_items r).
Definition dec_receipt (b : bytes) : option receipt :=
  let? n := item_count b in
  if (n =? 13)%nat then
    let? th := val_at (dec_hash 32) b 0 in
    let? bn := val_at (dec_uint 8) b 1 in
    let? bh := val_at (dec_hash 32) b 2 in
    let? ti := val_at (dec_uint 4) b 3 in
    let? sr := val_at (dec_hash 32) b 4 in
    let? ug := val_at (dec_uint 8) b 5 in
    let? lb := val_at (dec_hash 256) b 6 in
    let? lo := val_at (dec_list dec_log) b 7 in
    let? li := val_at (dec_uint 4) b 8 in
    let? ca := val_at (dec_option (dec_hash 32)) b 9 in
    let? se := val_at (dec_hash 20) b 10 in
    let? ra := val_at dec_value b 11 in
    let? re := de_exit ra in
    let? rm := val_at dec_bool b 12 in
    Some (Receipt_ th bn bh ti sr ug lb lo li ca se re rm)
  else None.

(** types/executor.rs:26-35, codec/executor.rs:5-39: the list is opened for 7
    items, so it is closed after the code address and [removed] lands behind it. *)
Record tx_resp := TxResp_ {
  x_exit : exit_reason; x_ret : bytes; x_gas_used : N; x_remain_gas : N; x_fee_cost : N;
  x_logs : list log; x_code_address : option bytes; x_removed : bool }.
Definition txresp_items (r : tx_resp) : list bytes :=
  [enc_str (ser_exit (x_exit r)); enc_str (x_ret r); enc_uint (x_gas_used r);
   enc_uint (x_remain_gas r); enc_uint (x_fee_cost r); enc_list (map enc_log (x_logs r));
   enc_option (option_map enc_hash (x_code_address r))].
Definition enc_txresp (r : tx_resp) : bytes := enc_list (txresp_items r) ++ enc_bool (x_removed r).
Definition dec_txresp (b : bytes) : option tx_resp :=
  let? n := item_count b in
  if (n =? 7)%nat then
    let? ra := val_at dec_value b 0 in
    let? re := de_exit ra in
    let? rt := val_at dec_value b 1 in
    let? gu := val_at (dec_uint 8) b 2 in
    let? rg := val_at (dec_uint 8) b 3 in
    let? fc := val_at (dec_uint 32) b 4 in
    let? lo := val_at (dec_list dec_log) b 5 in
    let? ca := val_at (dec_option (dec_hash 32)) b 6 in
    let? rm := val_at dec_bool b 7 in
    Some (TxResp_ re rt gu rg fc lo ca rm)
  else None.
End Exit.
