(** The light client of /repo/devtools/axon-tools: its own copies of the block types with their RLP encodings and
    [verify_proof], by which a bridge or a wallet accepts a block without running a node.
    Models /repo/devtools/axon-tools/src/{types,rlp_codec,proof}.rs.
    Simplifications: errors carry no message; decoding and serde are left out (the node's decoders are in BlockModel);
    verify_trie_proof (proof.rs 18-26) is one call of the external cita_trie and is left out. *)
From Verif Require Import Bytes Rlp TxModel BlockModel.
From Coq Require Import NArith List.
Import ListNotations.
Local Open Scope N_scope.

(* ---------------- types.rs ---------------- *)
(** Proof (296-335). *)
Record t_proof := TProof { tp_number : N; tp_round : N; tp_proposal_hash : bytes; tp_signature : bytes; tp_bitmap : bytes }.
(** Header (187-236); BlockVersion has the single value V0, ExtraData one field of bytes. *)
Record t_header := THeader {
  th_prev_hash : bytes; th_proposer : bytes; th_state_root : bytes; th_transactions_root : bytes; th_signed_txs_hash : bytes;
  th_receipts_root : bytes; th_log_bloom : bytes; th_timestamp : N; th_number : N; th_gas_used : N; th_gas_limit : N;
  th_extra_data : list bytes; th_base_fee_per_gas : N; th_proof : t_proof; th_call_system_script_count : N; th_chain_id : N }.
(** Block (245-248). *)
Record t_block := TBlock { tb_header : t_header; tb_tx_hashes : list bytes }.
(** Proposal (256-289), in its own field order. *)
Record t_proposal := TProposal {
  tq_prev_hash : bytes; tq_proposer : bytes; tq_prev_state_root : bytes; tq_transactions_root : bytes; tq_signed_txs_hash : bytes;
  tq_timestamp : N; tq_number : N; tq_gas_limit : N; tq_extra_data : list bytes; tq_base_fee_per_gas : N; tq_proof : t_proof;
  tq_chain_id : N; tq_call_system_script_count : N; tq_tx_hashes : list bytes }.
(** ValidatorExtend (518-532); the address and the two weights are never read by the functions below. *)
Record t_validator := TValidator { tv_bls : bytes; tv_pub : bytes; tv_weight : N }.
(** Vote (366-371). *)
Record t_vote := TVote { vt_height : N; vt_round : N; vt_type : N; vt_hash : bytes }.

(** The derived encoders: a list of the fields in the order of declaration. *)
Definition t_enc_proof (p : t_proof) : bytes :=
  enc_list [enc_uint (tp_number p); enc_uint (tp_round p); enc_hash (tp_proposal_hash p); enc_str (tp_signature p); enc_str (tp_bitmap p)].
Definition t_enc_extra (e : bytes) : bytes := enc_list [enc_str e].
(** rlp_codec.rs 6-11 *)
Definition t_enc_version : bytes := enc_list [enc_uint 0].
Definition t_enc_header (h : t_header) : bytes :=
  enc_list [t_enc_version; enc_hash (th_prev_hash h); enc_hash (th_proposer h); enc_hash (th_state_root h);
    enc_hash (th_transactions_root h); enc_hash (th_signed_txs_hash h); enc_hash (th_receipts_root h); enc_hash (th_log_bloom h);
    enc_uint (th_timestamp h); enc_uint (th_number h); enc_uint (th_gas_used h); enc_uint (th_gas_limit h);
    enc_list (map t_enc_extra (th_extra_data h)); enc_uint (th_base_fee_per_gas h); t_enc_proof (th_proof h);
    enc_uint (th_call_system_script_count h); enc_uint (th_chain_id h)].
Definition t_enc_block (b : t_block) : bytes := enc_list [t_enc_header (tb_header b); enc_list (map enc_hash (tb_tx_hashes b))].
(** rlp_codec.rs 34-51: thirteen fields, the base fee and the chain id are not written. *)
Definition t_enc_proposal (p : t_proposal) : bytes :=
  enc_list [t_enc_version; enc_hash (tq_prev_hash p); enc_hash (tq_proposer p); enc_hash (tq_prev_state_root p);
    enc_hash (tq_transactions_root p); enc_hash (tq_signed_txs_hash p); enc_uint (tq_timestamp p); enc_uint (tq_number p);
    enc_uint (tq_gas_limit p mod 2 ^ 64); enc_list (map t_enc_extra (tq_extra_data p)); t_enc_proof (tq_proof p);
    enc_uint (tq_call_system_script_count p); enc_list (map enc_hash (tq_tx_hashes p))].
(** rlp_codec.rs 22-31 *)
Definition t_enc_vote (v : t_vote) : bytes :=
  enc_list [enc_uint (vt_height v); enc_uint (vt_round v); enc_uint (vt_type v); enc_str (vt_hash v)].

(* ---------------- proof.rs ---------------- *)
(** The order of byte strings (Bytes::cmp). *)
Fixpoint bytes_ltb (a b : bytes) : bool :=
  match a, b with
  | _, [] => false
  | [], _ :: _ => true
  | x :: a', y :: b' => if x <? y then true else if x =? y then bytes_ltb a' b' else false
  end.
(** Ord for ValidatorExtend (types.rs 540-544): by public key.  [sort] is stable. *)
Fixpoint insert_validator (v : t_validator) (l : list t_validator) : list t_validator :=
  match l with
  | [] => [v]
  | w :: r => if bytes_ltb (tv_pub w) (tv_pub v) then w :: insert_validator v r else v :: w :: r
  end.
Definition sort_validators (l : list t_validator) : list t_validator := fold_right insert_validator [] l.

(** BitVec::from_bytes: the bits of each byte, the most significant first. *)
Definition byte_bits (b : N) : list bool := map (N.testbit b) [7; 6; 5; 4; 3; 2; 1; 0].
Definition bitmap_bits (b : bytes) : list bool := flat_map byte_bits b.

(** The external BLS functions: PublicKey::from_bytes, AggregatePublicKey::aggregate followed by Signature::verify, Signature::from_bytes. *)
Record bls := Bls {
  key_ok : bytes -> bool;
  aggregate_ok : list bytes -> bool;
  sig_ok : bytes -> bool;
  sig_verify : bytes -> list bytes -> bytes -> bool (* message, keys, signature *)
}.

Section Verify.
  Variable B : bls.
  Variable digest : bytes -> bytes.  (* keccak_256, hash.rs 5-11 *)

  (** The loop of extract_pks (88-95). *)
  Fixpoint pick_keys (l : list t_validator) (bits : list bool) : option (list bytes) :=
    match l, bits with
    | v :: l', true :: bits' =>
        if key_ok B (tv_bls v) then match pick_keys l' bits' with Some ks => Some (tv_bls v :: ks) | None => None end else None
    | _ :: l', false :: bits' => pick_keys l' bits'
    | _, _ => Some []
    end.
  (** extract_pks (78-102) *)
  Definition extract_pks (p : t_proof) (l : list t_validator) : outcome (list bytes) :=
    let sorted := sort_validators l in
    match pick_keys sorted (bitmap_bits (tp_bitmap p)) with
    | None => Err
    | Some ks => if Nat.leb (length ks * 3) (length sorted * 2) then Err else Ok ks
    end.

  (** 34-50 *)
  Definition proposal_of (b : t_block) (root : bytes) : t_proposal :=
    let h := tb_header b in
    TProposal (th_prev_hash h) (th_proposer h) root (th_transactions_root h) (th_signed_txs_hash h) (th_timestamp h) (th_number h)
      (th_gas_limit h) (th_extra_data h) (th_base_fee_per_gas h) (th_proof h) (th_chain_id h) (th_call_system_script_count h) (tb_tx_hashes b).

  (** verify_proof (28-76) *)
  Definition verify_proof (b : t_block) (root : bytes) (validators : list t_validator) (p : t_proof) : outcome unit :=
    if negb (beqb (digest (t_enc_proposal (proposal_of b root))) (tp_proposal_hash p)) then Err
    else
      let hash_vote := digest (t_enc_vote (TVote (tp_number p) (tp_round p) 2 (tp_proposal_hash p))) in
      match extract_pks p validators with
      | Ok ks =>
          if negb (aggregate_ok B ks) then Err
          else if negb (sig_ok B (tp_signature p)) then Err
          else if sig_verify B hash_vote ks (tp_signature p) then Ok tt else Err
      | Err => Err
      | Panic => Panic
      end.
End Verify.
