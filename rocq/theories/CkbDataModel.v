(** What programs of the CKB-VM and the clients of the CKB RPC read from the HeaderCell store.
    Models /repo/core/executor/src/system_contract/mod.rs 238-315 (DataProvider), image_cell/store.rs 289-309 (into_meta, cell_data_hash) and
    /repo/core/api/src/jsonrpc/impl/ckb_light_client.rs 20-59 with /repo/core/api/src/adapter.rs 356-366 (get_image_cell_root).
    Simplifications: as in CellModel the store is its content and the databases do not fail; the packed output of a cell is its bytes; the hash that the
    crate ckb_types computes of a header and blake2b (CKB's personalisation) are arguments; the JSON forms (crate ckb_jsonrpc_types) are not modelled. *)
From Verif Require Import Bytes Rlp TxModel CellModel.
From stdpp Require Import base gmap.
Local Open Scope N_scope.

(** ckb_light_client_abi.rs 210-224 *)
Record ckb_header := CkbHeader_ {
  kh_version : N; kh_target : N; kh_timestamp : N; kh_number : N; kh_epoch : N; kh_parent : bytes; kh_txs_root : bytes; kh_proposals : bytes;
  kh_extra : bytes; kh_dao : bytes; kh_nonce : N; kh_extension : bytes; kh_hash : bytes }.
(** the fields of a packed header (crate ckb_types) *)
Record packed_header := PackedHeader {
  ph_version : N; ph_parent : bytes; ph_timestamp : N; ph_number : N; ph_epoch : N; ph_txs_root : bytes; ph_proposals : bytes; ph_extra : bytes;
  ph_target : N; ph_dao : bytes; ph_nonce : N }.

(** CellMeta (crate ckb_types), without the out point; CellStatus *)
Record cell_meta := CellMeta { cm_output : bytes; cm_len : N; cm_data_hash : bytes; cm_data : bytes }.
Inductive cell_status := Live (m : cell_meta) | Unknown.

Notation call := (cell_call (hdr := ckb_header)).

Section Data.
  Variable blake : bytes -> bytes.
  Variable henc : ckb_header -> bytes.
  Variable hdec : bytes -> option ckb_header.

  (** image_cell/store.rs 303-309 *)
  Definition cell_data_hash (d : bytes) : bytes := match d with [] => repeat 0 32 | _ => blake d end.
  (** 290-300 *)
  Definition into_meta (c : cell) : cell_meta := CellMeta (c_output c) (len (c_data c)) (cell_data_hash (c_data c)) (c_data c).

  (** [.ok().flatten()] *)
  Definition ok_flat {A} (o : option (option A)) : option A := match o with Some x => x | None => None end.

  (** mod.rs 243-255 *)
  Definition dp_cell (root : trie) (k : cell_key) : cell_status := match ok_flat (get_cell root k) with Some c => Live (into_meta c) | None => Unknown end.
  (** 257-264 *)
  Definition dp_cell_data (root : trie) (k : cell_key) : option bytes := option_map c_data (ok_flat (get_cell root k)).
  (** 266-274 *)
  Definition dp_cell_data_hash (root : trie) (k : cell_key) : option bytes := option_map cell_data_hash (dp_cell_data root k).
  (** 277-300 *)
  Definition build_header (h : ckb_header) : packed_header :=
    PackedHeader (kh_version h) (kh_parent h) (kh_timestamp h) (kh_number h) (kh_epoch h) (kh_txs_root h) (kh_proposals h) (kh_extra h) (kh_target h)
      (kh_dao h) (kh_nonce h).
  Definition dp_header (root : trie) (k : bytes) : option packed_header := option_map build_header (ok_flat (get_header hdec root k)).
  (** 302-312 *)
  Definition dp_extension (root : trie) (k : bytes) : option bytes := option_map kh_extension (ok_flat (get_header hdec root k)).

  (* ---------------------------------------------------------------------- *)
  (** * Blocks of calls and the RPC *)
  (** The calls that the two contracts received, block by block.  update_states (utils.rs 38-46, 65-99) writes the root under both accounts, so the root
      under the image cell account is that of the last call. *)
  Definition run_block (root : trie) (calls : list (option call)) : trie := foldl (fun t c => (cell_exec kh_hash henc t c).1) root calls.
  Definition latest_root (blocks : list (list (option call))) : trie := foldl run_block ∅ blocks.

  (** ckb_light_client.rs 20-30 *)
  Definition rpc_header (blocks : list (list (option call))) (hash : bytes) : option packed_header := dp_header (latest_root blocks) hash.
  (** CellInfo and CellData (crate ckb_jsonrpc_types): output, and the hash and content of the data *)
  Record cell_info := CellInfo { ci_output : bytes; ci_data : option (bytes * bytes) }.
  (** 32-58 *)
  Definition rpc_cell (blocks : list (list (option call))) (k : cell_key) (with_data : bool) : option cell_info :=
    match dp_cell (latest_root blocks) k with
    | Live m => Some (CellInfo (cm_output m) (if with_data then Some (blake (cm_data m), cm_data m) else None))
    | Unknown => None
    end.
End Data.
