(** C100, third part: what is stored for a transaction that came with a byte too many, and a history that meets the hypotheses. *)
From Verif Require Import Bytes BytesProofs Rlp RlpProofs TxModel TxProofs TxProps StorageModel StorageProofs BlockModel BlockProofs Keccak MempoolModel DbModel DbProps DbProps2.
From Verif Require Web3Model ConsensusModel MempoolProps ReplayProps BlockProps.
From stdpp Require Import base gmap list.
From Coq Require Import Lia.
Local Open Scope N_scope.

Notation K := Keccak.keccak256.
Definition rec0 := MempoolProps.rec0.
Definition no_shape : N → option xshape := λ _, None.
(** A payment as a peer sent it, with one byte after the end. *)
Definition padded : stx := ReplayProps.t_padded.
Definition kept : stx := ReplayProps.t_pay.
Theorem C100_padded_refuted : ∃ raw t h t', dec_stx K rec0 raw = Ok t ∧ check_transaction (λ _, true) MempoolProps.env0 t = Ok tt ∧
  h = [ETxs (Web3Model.W K) 5 [t]] ∧
  (bget_tx K rec0 (brun K rec0 no_shape h) (u_hash (s_tx t))).2 = Ok (Some t') ∧
  bget_transactions K rec0 (brun K rec0 no_shape h) 5 [u_hash (s_tx t)] = Ok [Some t'] ∧
  u_hash (s_tx t') ≠ u_hash (s_tx t) ∧ u_unsigned (s_tx t') = u_unsigned (s_tx t) ∧ s_sender t' = s_sender t.
Proof.
  exists (enc_str (ReplayProps.raw_of 0 3 700 ++ [184])), padded, [ETxs (Web3Model.W K) 5 [padded]], kept.
  split; [vm_compute; reflexivity|]. split; [vm_compute; reflexivity|]. split; [reflexivity|].
  split; [vm_compute; reflexivity|]. split; [vm_compute; reflexivity|]. split; [vm_compute; discriminate|]. split; vm_compute; reflexivity.
Qed.
Print Assumptions C100_padded_refuted.

(** What PullTxsRpcHandler (message.rs 327-342) answers for hashes of a block: the transactions that were found. *)
Definition answer (o : outcome (list (option stx))) : list stx := match o with Ok l => omap id l | _ => [] end.
(** A block that contains it cannot be fetched by a node that has not got the transaction in its pool: the honest answer has another hash, and is refused. *)
Theorem C100_unsyncable_refuted : ∃ t, (∃ raw, dec_stx K rec0 raw = Ok t ∧ check_transaction (λ _, true) MempoolProps.env0 t = Ok tt) ∧
  let db := brun K rec0 no_shape [ETxs (Web3Model.W K) 5 [t]] in
  ∀ (P : ConsensusModel.params) (conv : stx → ConsensusModel.stx P), (∀ u, ConsensusModel.stx_hash P (conv u) = u_hash (s_tx u)) →
  ∀ (i : ConsensusModel.fetch_input P), b_tx_hashes (ConsensusModel.fi_block P i) = [u_hash (s_tx t)] →
    ConsensusModel.fi_mem P i (u_hash (s_tx t)) = None → ConsensusModel.fi_chunk P i ≠ 0%nat →
    (∀ q, ConsensusModel.fi_remote P i q = Ok (map conv (answer (bget_transactions K rec0 db 5 q)))) →
    ConsensusModel.get_rich_block P 5 i = Err.
Proof.
  exists padded. split.
  - exists (enc_str (ReplayProps.raw_of 0 3 700 ++ [184])). split; vm_compute; reflexivity.
  - cbn zeta. intros P conv C i H M Ch R. unfold ConsensusModel.get_rich_block. destruct (negb _); [reflexivity|]. rewrite H.
    cbn [ConsensusModel.split_mem]. rewrite M. cbn [app length ConsensusModel.chunks]. case_bool_decide as Z; [by rewrite Z in Ch|].
    destruct (ConsensusModel.fi_chunk P i) as [|k] eqn:E; [done|]. cbn [take firstn ConsensusModel.chunks ConsensusModel.pull]. rewrite R.
    assert (A : bget_transactions K rec0 (brun K rec0 no_shape [ETxs (Web3Model.W K) 5 [padded]]) 5 (u_hash (s_tx padded) :: take k []) = Ok [Some kept]).
    { rewrite take_nil. vm_compute. reflexivity. }
    rewrite A. cbn [answer omap list_omap id map ConsensusModel.place]. rewrite C, lookup_insert_ne; [by rewrite lookup_empty|]. vm_compute. discriminate.
Qed.
Print Assumptions C100_unsyncable_refuted.

(** Blocks are not saved as a whole: when the library refuses the last of the calls of insert_block, an error is reported, the block is found by its
    number but not by its hash, and the latest block is the one before. *)
Theorem C100_torn_refuted : ∃ s b ios, s = brun K rec0 no_shape [] ∧
  let r := binsert_block K s b ios in r.2 = Err ∧ (bget_block K r.1 (h_number (b_header b))).2 = Ok (Some b) ∧
  (bget_by_hash K r.1 (Web3Model.hash_of K b)).2 = Ok None ∧ bget_latest_block K r.1 = bget_latest_block K s.
Proof.
  exists (brun K rec0 no_shape []), BlockProps.ex_block, [true; true; false]. split; [reflexivity|]. cbn zeta.
  split; [vm_compute; reflexivity|]. split; [vm_compute; reflexivity|]. split; vm_compute; reflexivity.
Qed.
Print Assumptions C100_torn_refuted.

(* ---------------- the hypotheses are met ---------------- *)
Definition ex_r : receipt := BlockProps.ex_receipt (XSucceed 2).
Definition h_ex : list (sevent (Web3Model.W K)) :=
  [EGetTx (Web3Model.W K) (u_hash (s_tx kept)); ERestart (Web3Model.W K); EProof (Web3Model.W K) BlockProps.ex_proof;
   ECode (Web3Model.W K) (repeat 3 32) (repeat 4 32) [96; 0]; ERcpts (Web3Model.W K) 42 [ex_r]; ETxs (Web3Model.W K) 42 [kept];
   ESave (Web3Model.W K) BlockProps.ex_block].
Example C100_example : Forall (fits K rec0 BlockProps.ex_shape) h_ex ∧
  bget_latest_block K (brun K rec0 BlockProps.ex_shape h_ex) = Ok BlockProps.ex_block ∧
  (bget_tx K rec0 (brun K rec0 BlockProps.ex_shape h_ex) (u_hash (s_tx kept))).2 = Ok (Some kept) ∧
  bget_receipts K BlockProps.ex_shape (brun K rec0 BlockProps.ex_shape h_ex) 42 [r_tx_hash ex_r] = Ok [Some ex_r] ∧
  (bget_code_at K (brun K rec0 BlockProps.ex_shape h_ex) (repeat 3 32)).2 = Ok (Some [96; 0]).
Proof.
  split.
  - constructor; [exact Logic.I|]. constructor; [exact Logic.I|]. constructor; [split; [exact BlockProps.ex_proof_wf|vm_compute; reflexivity]|].
    constructor; [split; (split; [apply wf_bytesb_spec; vm_compute; reflexivity|vm_compute; reflexivity])|].
    constructor; [split; [vm_compute; reflexivity|]; constructor; [apply BlockProps.ex_receipts_wf; right; left; reflexivity|constructor]|].
    constructor; [split; [vm_compute; reflexivity|]; constructor; [vm_compute; reflexivity|constructor]|].
    constructor; [exact BlockProps.ex_block_wf|constructor].
  - split; [vm_compute; reflexivity|]. split; [vm_compute; reflexivity|]. split; vm_compute; reflexivity.
Qed.
