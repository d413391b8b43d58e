(** Property theorems C05-C07: headers, blocks, proofs, proposals, receipts, execution results. *)
From Verif Require Import Bytes BytesProofs Rlp RlpProofs TxModel TxSpec TxProofs TxProps BlockModel BlockProofs.

(** The specification of a lossless codec: decoding what was written gives the value back. *)
Definition lossless {A} (enc : A -> bytes) (dec : bytes -> option A) (wf : A -> Prop) : Prop :=
  forall x, wf x -> len (enc x) < 2^64 -> dec (enc x) = Some x.

Lemma codec_lossless {A} (enc : A -> bytes) dec wf : codec enc dec wf -> lossless enc dec wf.
Proof. intros C x W L. now apply C. Qed.

Lemma lossless_inj {A} (enc : A -> bytes) dec wf : lossless enc dec wf ->
  forall x y, wf x -> wf y -> len (enc x) < 2^64 -> enc x = enc y -> x = y.
Proof.
  intros C x y Wx Wy L E. assert (Some x = Some y); [|congruence].
  rewrite <- (C x Wx L), <- (C y Wy); rewrite <- E; auto.
Qed.

(* ================= C05 ================= *)
Theorem C05_header_roundtrip : lossless enc_hdr dec_hdr wf_header.
Proof. exact (codec_lossless _ _ _ codec_header). Qed.
Print Assumptions C05_header_roundtrip.

Theorem C05_block_roundtrip : lossless enc_block dec_block wf_block.
Proof. exact (codec_lossless _ _ _ codec_block). Qed.
Print Assumptions C05_block_roundtrip.

Theorem C05_proof_roundtrip : lossless enc_proof dec_proof wf_proof.
Proof. exact (codec_lossless _ _ _ codec_proof). Qed.
Print Assumptions C05_proof_roundtrip.

(** Batches of blocks of any size (the consensus sync message). *)
Theorem C05_batch_blocks_roundtrip : lossless enc_blocks dec_blocks (Forall wf_block).
Proof. exact (codec_lossless _ _ _ codec_blocks). Qed.
Print Assumptions C05_batch_blocks_roundtrip.

(** The bytes whose digest is the block hash determine the header. *)
Theorem C05_header_bytes_bind : forall a b, wf_header a -> wf_header b ->
  len (enc_hdr a) < 2^64 -> enc_hdr a = enc_hdr b -> a = b.
Proof. exact (lossless_inj _ _ _ C05_header_roundtrip). Qed.
Print Assumptions C05_header_bytes_bind.

(* ---- concrete values ---- *)
(** The variants of evm 0.37's [ExitError]: 16 variants, of which index 13 carries a string
    and index 15 an opcode byte. *)
Definition ex_shape (t : N) : option xshape :=
  if t =? 13 then Some SStr else if t =? 15 then Some SByte else if t <? 16 then Some SUnit else None.
Ltac wf_tac2 :=
  repeat match goal with
  | |- _ /\ _ => split
  | |- fixed _ _ => split; first [apply wf_bytesb_spec; vm_compute; reflexivity | vm_compute; reflexivity]
  | |- wf_bytes _ => apply wf_bytesb_spec; vm_compute; reflexivity
  | |- Forall _ [] => constructor
  | |- Forall _ (_ :: _) => constructor
  | |- Forall _ ?l => let l2 := eval hnf in l in progress change l with l2
  | |- _ < _ => vm_compute; reflexivity
  | |- u64_ok _ => vm_compute; reflexivity
  | |- u32_ok _ => vm_compute; reflexivity
  | |- u256_ok _ => vm_compute; reflexivity
  | |- True => exact I
  | |- match ex_shape ?t with _ => _ end => let v := eval vm_compute in (ex_shape t) in change (ex_shape t) with v; cbn iota
  | |- match Some _ with _ => _ end => cbn iota
  end.

Definition ex_proof : proof := Proof_ 41 2 (repeat 17 32) (repeat 200 192) [224].
Definition ex_header : header :=
  Header_ V0 (repeat 1 32) (repeat 2 20) (repeat 3 32) (repeat 4 32) (repeat 5 32) (repeat 6 32)
    (repeat 7 256) 1700000000000 42 21000 30000000 [[1; 2; 3]; []; repeat 9 60] 1337 ex_proof 3 2022.
Definition ex_block : block := Block_ ex_header [repeat 10 32; repeat 11 32; repeat 12 32].

Example ex_proof_wf : wf_proof ex_proof.
Proof. unfold wf_proof. wf_tac2. Qed.
Example ex_header_wf : wf_header ex_header /\ len (enc_hdr ex_header) < 2^64.
Proof. split; [|vm_compute; reflexivity]. unfold wf_header. wf_tac2. all: try exact ex_proof_wf. all: wf_tac2. Qed.
Example ex_block_wf : wf_block ex_block /\ len (enc_block ex_block) < 2^64.
Proof.
  split; [|vm_compute; reflexivity]. split; [apply ex_header_wf|]. unfold ex_block. cbn [b_tx_hashes]. wf_tac2.
Qed.
Example ex_blocks_wf : Forall wf_block [ex_block; ex_block] /\ len (enc_blocks [ex_block; ex_block]) < 2^64.
Proof. split; [repeat constructor; apply ex_block_wf|vm_compute; reflexivity]. Qed.

(* ================= C06 ================= *)
(** The full statement fails: any proposal whose base fee or chain id differs from the
    node's constants decodes to another proposal. *)
Theorem C06_proposal_roundtrip_refuted : exists node_chain_id p,
  wf_proposal p /\ len (enc_proposal p) < 2^64 /\
  exists q, dec_proposal node_chain_id (enc_proposal p) = Some q /\ q <> p.
Proof.
  exists 2022, (Proposal_ V0 (repeat 1 32) (repeat 2 20) (repeat 3 32) (repeat 4 32) (repeat 5 32)
    1700000000000 42 30000000 [[1]] 7 ex_proof 2022 3 [repeat 10 32]).
  split; [|split; [vm_compute; reflexivity|]].
  - unfold wf_proposal. wf_tac2. all: try exact ex_proof_wf. all: wf_tac2.
  - eexists. split; [vm_compute; reflexivity|]. intros E. apply (f_equal p_base_fee) in E. discriminate E.
Qed.
Print Assumptions C06_proposal_roundtrip_refuted.

(** Two different proposals have the same bytes, hence the same hash: validators sign a hash that does not
    cover the base fee or the chain id. *)
Theorem C06_proposal_hash_ambiguous_refuted : exists p q,
  wf_proposal p /\ wf_proposal q /\ p <> q /\ enc_proposal p = enc_proposal q.
Proof.
  exists (Proposal_ V0 (repeat 1 32) (repeat 2 20) (repeat 3 32) (repeat 4 32) (repeat 5 32)
    1700000000000 42 30000000 [[1]] 1337 ex_proof 2022 3 [repeat 10 32]),
   (Proposal_ V0 (repeat 1 32) (repeat 2 20) (repeat 3 32) (repeat 4 32) (repeat 5 32)
    1700000000000 42 30000000 [[1]] 1337 ex_proof 2023 3 [repeat 10 32]).
  split; [|split; [|split]].
  - unfold wf_proposal. wf_tac2. all: try exact ex_proof_wf. all: wf_tac2.
  - unfold wf_proposal. wf_tac2. all: try exact ex_proof_wf. all: wf_tac2.
  - intros E. apply (f_equal p_chain_id) in E. discriminate E.
  - reflexivity.
Qed.
Print Assumptions C06_proposal_hash_ambiguous_refuted.

(** The part that holds (missing: other base fees and chain ids): proposals of this chain
    with the built-in base fee survive. *)
Theorem C06_proposal_roundtrip_partial : forall node_chain_id,
  lossless enc_proposal (dec_proposal node_chain_id)
    (fun p => wf_proposal p /\ p_base_fee p = 0x539 /\ p_chain_id p = node_chain_id).
Proof.
  intros c p (W & B & C) L. rewrite proposal_decode by assumption. subst c.
  change BASE_FEE_PER_GAS with 0x539. rewrite <- B. now destruct p.
Qed.
Print Assumptions C06_proposal_roundtrip_partial.

(** Up to these two fields the decoded proposal is always the encoded one. *)
Theorem C06_proposal_other_fields_partial : forall node_chain_id p,
  wf_proposal p -> len (enc_proposal p) < 2^64 ->
  exists q, dec_proposal node_chain_id (enc_proposal p) = Some q /\
    p_version q = p_version p /\ p_prev_hash q = p_prev_hash p /\ p_proposer q = p_proposer p /\
    p_prev_state_root q = p_prev_state_root p /\ p_transactions_root q = p_transactions_root p /\
    p_signed_txs_hash q = p_signed_txs_hash p /\ p_timestamp q = p_timestamp p /\
    p_number q = p_number p /\ p_gas_limit q = p_gas_limit p /\ p_extra_data q = p_extra_data p /\
    p_proof q = p_proof p /\ p_call_system_script_count q = p_call_system_script_count p /\
    p_tx_hashes q = p_tx_hashes p.
Proof.
  intros c p W L. eexists. split; [apply proposal_decode; assumption|]. cbn. repeat split.
Qed.
Print Assumptions C06_proposal_other_fields_partial.

Definition ex_proposal : proposal :=
  Proposal_ V0 (repeat 1 32) (repeat 2 20) (repeat 3 32) (repeat 4 32) (repeat 5 32)
    1700000000000 42 30000000 [[1]; repeat 3 100] 1337 ex_proof 2022 3 [repeat 10 32; repeat 0 32].
Example ex_proposal_wf :
  (wf_proposal ex_proposal /\ p_base_fee ex_proposal = 0x539 /\ p_chain_id ex_proposal = 2022) /\
  len (enc_proposal ex_proposal) < 2^64.
Proof.
  split; [|vm_compute; reflexivity]. split; [|now split].
  unfold wf_proposal. wf_tac2. all: try exact ex_proof_wf. all: wf_tac2.
Qed.

(* ================= C07 ================= *)
(** [shape] lists which EVM error variants exist and what they carry. *)
Theorem C07_receipt_roundtrip : forall shape,
  lossless enc_receipt (dec_receipt shape) (wf_receipt shape).
Proof. intros shape. exact (codec_lossless _ _ _ (codec_receipt shape)). Qed.
Print Assumptions C07_receipt_roundtrip.

(** Execution results are written as a list of seven items followed by a stray one, and no
    execution result whatsoever is read back. *)
Theorem C07_exec_result_refuted : forall shape r,
  wf_txresp shape r -> len (enc_txresp r) < 2^64 -> dec_txresp shape (enc_txresp r) = None.
Proof. exact txresp_never_decodes. Qed.
Print Assumptions C07_exec_result_refuted.

(** A single log survives too (the receipt's log list is made of these). *)
Theorem C07_log_roundtrip : lossless enc_log dec_log wf_log.
Proof. exact (codec_lossless _ _ _ codec_log). Qed.
Print Assumptions C07_log_roundtrip.

Definition ex_logs : list log :=
  [Log_ (repeat 1 20) [repeat 2 32; repeat 3 32] [1; 2; 3]; Log_ (repeat 4 20) [] []].
Definition ex_receipt (x : exit_reason) : receipt :=
  Receipt_ (repeat 1 32) 42 (repeat 2 32) 7 (repeat 3 32) 21000 (repeat 0 256) ex_logs 5
    (Some (repeat 8 32)) (repeat 9 20) x false.
Example ex_receipts_wf : forall x,
  In x [XSucceed 0; XSucceed 2; XRevert 0; XError (XErr 4 PUnit); XError (XErr 13 (PStr [104; 105]));
        XError (XErr 15 (PByte 254)); XFatal 1; XFatalErr (XErr 4 PUnit); XFatalOther [111]] ->
  wf_receipt ex_shape (ex_receipt x) /\ len (enc_receipt (ex_receipt x)) < 2^64.
Proof.
  intros x Hx. cbn [In] in Hx.
  repeat (destruct Hx as [<-|Hx]; [split; [|vm_compute; reflexivity];
    unfold wf_receipt, ex_receipt, ex_logs; cbn; unfold wf_xerr, wf_log; cbn; wf_tac2|]).
  destruct Hx.
Qed.
Definition ex_txresp : tx_resp :=
  TxResp_ (XSucceed 1) [1; 2] 21000 5 99 ex_logs None false.
Example ex_txresp_wf : wf_txresp ex_shape ex_txresp /\ len (enc_txresp ex_txresp) < 2^64.
Proof. split; [|vm_compute; reflexivity]. unfold wf_txresp, ex_txresp, ex_logs; cbn. unfold wf_log; cbn. wf_tac2. Qed.
