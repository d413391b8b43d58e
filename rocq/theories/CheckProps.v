(** C78: what a proposal has been checked for when a node accepts it. *)
From Verif Require Import Bytes BytesProofs Rlp TxModel WalModel StorageModel StorageProofs StorageProps BlockModel ConsensusModel ConsensusProofs ConsensusProps ConsensusProps2.
From stdpp Require Import base gmap list.
From Coq Require Import Lia.
Local Open Scope N_scope.

Section Props.
  Variable P : params.

  (** What a proposal of another node must satisfy. *)
  Record acceptable (n : node P) (p : proposal) (i : check_input P) : Prop := {
    ac_number : p_number p = pf_number (p_proof p) + 1 /\ pf_number (p_proof p) + 1 < 2 ^ 64;
    ac_hardfork : forall e r, p_extra_data p = e :: r -> ci_hardfork_ok P i e = true;
    ac_parent : exists prev, block_by_number P (store P n) (p_number p - 1) = Ok prev /\ p_prev_hash p = block_hash P prev /\
      h_timestamp (BlockModel.b_header prev) <= p_timestamp p <= ci_now P i /\
      verify_proof P (store P n) prev (p_proof p) = Ok ();
    ac_known : ci_verify_txs P i (p_number p) (p_tx_hashes p) = true;
    ac_txs : exists l, ci_full P i (p_tx_hashes p) = Ok l /\ stxs_digest P l = p_signed_txs_hash p;
    ac_root : txs_root P (p_tx_hashes p) = p_transactions_root p }.

  Lemma beqb_true a b : beqb a b = true <-> a = b.
  Proof using. apply beqb_eq. Qed.

  Lemma check_shape n next hash p i :
    (check_block P n next hash p i).2 = Ok () <->
    p_number p = pf_number (p_proof p) + 1 /\ pf_number (p_proof p) + 1 < 2 ^ 64 /\
    (forall e r, p_extra_data p = e :: r -> ci_hardfork_ok P i e = true) /\
    (hash ∉ nd_exempt P n -> inner_check P n p i = Ok ()) /\ exists l, ci_full P i (p_tx_hashes p) = Ok l.
  Proof using.
    unfold check_block. change U64 with (2 ^ 64). destruct (N.leb_spec (2 ^ 64) (pf_number (p_proof p) + 1)) as [L|L].
    { split; [done|]. intros (_ & ? & _). lia. }
    destruct (N.eqb_spec (p_number p) (pf_number (p_proof p) + 1)) as [E|E]; cbn [negb].
    2: { split; [by destruct (p_number p =? 0)|]. by intros (? & _). }
    assert (HF : (match p_extra_data p with [] => true | e :: _ => ci_hardfork_ok P i e end = true) <->
                 (forall e r, p_extra_data p = e :: r -> ci_hardfork_ok P i e = true)).
    { destruct (p_extra_data p) as [|e r]; split; [done|done|intros H ? ? [= <- <-]; done|intros H; by eapply H]. }
    destruct (match p_extra_data p with [] => true | e :: _ => ci_hardfork_ok P i e end) eqn:HE; cbn [negb].
    2: { split; [done|]. intros (_ & _ & H & _). apply HF in H. discriminate. }
    case_bool_decide as X.
    - destruct (ci_full P i (p_tx_hashes p)) as [l| |]; cbn; split; try done.
      + intros _. repeat split; try done; [by apply HF|by eauto].
      + intros (_ & _ & _ & _ & ? & ?). done.
      + intros (_ & _ & _ & _ & ? & ?). done.
    - destruct (inner_check P n p i) as [[]| |] eqn:IC.
      + destruct (ci_full P i (p_tx_hashes p)) as [l| |]; cbn; split; try done.
        * intros _. repeat split; try done; [by apply HF|by eauto].
        * intros (_ & _ & _ & _ & ? & ?). done.
        * intros (_ & _ & _ & _ & ? & ?). done.
      + split; [done|]. intros (_ & _ & _ & H & _). by specialize (H X).
      + split; [done|]. intros (_ & _ & _ & H & _). by specialize (H X).
  Qed.

  (** A proposal that is not the node's own is accepted exactly when it is acceptable. *)
  Theorem C78_checked : forall n next hash p i, hash ∉ nd_exempt P n ->
    (check_block P n next hash p i).2 = Ok () <-> acceptable n p i.
  Proof using.
    intros n next hash p i NE. rewrite check_shape. unfold inner_check, verify_block_header, check_order. split.
    - intros (E & L & HF & IC & l & FL). specialize (IC NE). destruct (N.eqb_spec (p_number p) 0) as [|NZ]; [done|].
      destruct (block_by_number P (store P n) (p_number p - 1)) as [prev| |] eqn:Bn; try done.
      destruct (beqb (block_hash P prev) (p_prev_hash p)) eqn:PH; [|done]. apply beqb_true in PH.
      destruct (validate_timestamp _ _ _) eqn:T; [|done]. apply C42_validate in T. cbn [negb] in IC.
      destruct (verify_proof P (store P n) prev (p_proof p)) as [[]| |] eqn:VP; try done.
      destruct (ci_verify_txs P i (p_number p) (p_tx_hashes p)) eqn:VT; [|done]. cbn [negb] in IC. rewrite FL in IC.
      destruct (beqb (stxs_digest P l) (p_signed_txs_hash p)) eqn:SD; [|done]. cbn [negb] in IC. apply beqb_true in SD.
      destruct (beqb (txs_root P (p_tx_hashes p)) (p_transactions_root p)) eqn:TR; [|done]. apply beqb_true in TR.
      split; try done; [by exists prev|by exists l].
    - intros [[E L] HF (prev & Bn & PH & T & VP) VT (l & FL & SD) TR]. split; [done|]. split; [done|]. split; [done|].
      split; [|by exists l]. intros _. rewrite (proj2 (N.eqb_neq (p_number p) 0)) by lia. rewrite Bn.
      rewrite (proj2 (beqb_true (block_hash P prev) (p_prev_hash p))) by done.
      apply C42_validate in T. rewrite T. cbn [negb]. rewrite VP, VT. cbn [negb]. rewrite FL.
      rewrite (proj2 (beqb_true (stxs_digest P l) (p_signed_txs_hash p))) by done. cbn [negb].
      by rewrite (proj2 (beqb_true (txs_root P (p_tx_hashes p)) (p_transactions_root p))).
  Qed.

  (** Two nodes that accept the same proposal hold transaction lists with the same digest. *)
  Theorem C78_agree : forall n n' next next' hash hash' p i i' l l', hash ∉ nd_exempt P n -> hash' ∉ nd_exempt P n' ->
    (check_block P n next hash p i).2 = Ok () -> (check_block P n' next' hash' p i').2 = Ok () ->
    ci_full P i (p_tx_hashes p) = Ok l -> ci_full P i' (p_tx_hashes p) = Ok l' -> stxs_digest P l = stxs_digest P l'.
  Proof using.
    intros n n' next next' hash hash' p i i' l l' NE NE' C C' F F'.
    apply C78_checked in C as [_ _ _ _ (x & X & D) _]; [|done]. apply C78_checked in C' as [_ _ _ _ (x' & X' & D') _]; [|done].
    rewrite F in X. injection X as <-. rewrite F' in X'. injection X' as <-. congruence.
  Qed.

  (** What is written: an accepted proposal's transactions are in the log under the height being decided and the root. *)
  Theorem C78_logged : forall n next hash p i n' l, check_block P n next hash p i = (n', Ok ()) ->
    ci_full P i (p_tx_hashes p) = Ok l ->
    nd_wal P n' = save_txs (stx P) (enc_txs P) (nd_wal P n) next (p_transactions_root p) l /\
    nd_store P n' = nd_store P n /\ nd_status P n' = nd_status P n /\ nd_exempt P n' = nd_exempt P n.
  Proof using.
    intros n next hash p i n' l. unfold check_block. destruct (_ <=? _); [done|]. destruct (negb _); [by destruct (_ =? 0)|].
    destruct (negb _); [done|]. destruct (if bool_decide _ then _ else _); try done. intros E F. rewrite F in E. by injection E as <-.
  Qed.

  (** Should the mempool have lost them by the time the block is committed, they are read back from the log (for a log that
      has no other file of that name at this height). *)
  Theorem C78_recovered : forall n next hash p i n' l, (forall l, dec_txs P (enc_txs P l) = Ok l) ->
    check_block P n next hash p i = (n', Ok ()) -> ci_full P i (p_tx_hashes p) = Ok l ->
    files (nd_wal P n) next !! file_name (p_transactions_root p) = None ->
    load_txs (stx P) (dec_txs P) (nd_wal P n') next (p_transactions_root p) = Ok l.
  Proof using.
    intros n next hash p i n' l DE C F NF. destruct (C78_logged _ _ _ _ _ _ _ C F) as (-> & _).
    unfold load_txs, save_txs. cbn zeta. set (o := files (nd_wal P n) next) in *. unfold files. rewrite lookup_insert. unfold default. cbn [from_option id]. rewrite lookup_insert. change (list N) with bytes in *. rewrite NF.
    unfold overwrite. rewrite drop_nil, app_nil_r. apply DE.
  Qed.

  (** Nothing else in the proposal is looked at: who proposes, the previous state root, the gas limit, the base fee, the chain id
      and the number of system script calls are whatever the leader wrote. *)
  Theorem C78_unchecked : forall n next hash p i version proposer root gas fee chain calls, hash ∉ nd_exempt P n ->
    (check_block P n next hash p i).2 = Ok () ->
    (check_block P n next hash
      (Proposal_ version (p_prev_hash p) proposer root (p_transactions_root p) (p_signed_txs_hash p) (p_timestamp p) (p_number p)
         gas (p_extra_data p) fee (p_proof p) chain calls (p_tx_hashes p)) i).2 = Ok ().
  Proof using.
    intros n next hash p i version proposer root gas fee chain calls NE. rewrite !C78_checked by done. intros [A C D E F G]. by split.
  Qed.

  (** ** Which proposals are not checked *)
  Lemma exempt_step n e : nd_exempt P (step P n e) = nd_exempt P n \/ nd_exempt P (step P n e) = [] \/
    exists next i p, e = VPropose P next i /\ (get_proposal P n next i).2 = Ok p /\ nd_exempt P (step P n e) = proposal_hash P p :: nd_exempt P n.
  Proof using.
    destruct e as [next i|next hash p i|st c p pf f|r|k i|e]; cbn [step].
    - assert (G : (get_proposal P n next i).1 = n \/ exists p, get_proposal P n next i = (set_exempt P n (proposal_hash P p :: nd_exempt P n), Ok p)).
      { unfold get_proposal. destruct (_ <=? _); [by left|]. destruct (negb _); [by left|]. right. by eexists. }
      destruct G as [->|(p & G)]; [by left|]. right. right. exists next, i, p. by rewrite G.
    - left. unfold check_block. destruct (_ <=? _); [done|]. destruct (negb _); [done|]. destruct (negb _); [done|].
      destruct (if bool_decide _ then _ else _); try done. by destruct (ci_full P i (p_tx_hashes p)).
    - unfold commit. destruct (plan_commit P n st c p pf f); [by left|].
      destruct (after_save P _ _); [|by left|by left]. right. left. by destruct (metadata_at P _ _).
    - left. unfold announce. by repeat (case_match; try done).
    - left. unfold task_step. by repeat (case_match; try done).
    - left. by destruct (cache_event P e).
  Qed.

  (** The proposals a node made itself since its last commit, newest event first. *)
  Fixpoint own_since (n0 : node P) (h : list (event P)) (x : bytes) : Prop :=
    match h with
    | [] => x ∈ nd_exempt P n0
    | e :: r => (exists next i p, e = VPropose P next i /\ (get_proposal P (run P n0 r) next i).2 = Ok p /\ x = proposal_hash P p) \/ own_since n0 r x
    end.
  (** A proposal goes unchecked only when its hash is that of a proposal the node made itself (or was exempt at the start). *)
  Theorem C78_own : forall n0 h x, x ∈ nd_exempt P (run P n0 h) -> own_since n0 h x.
  Proof using.
    intros n0 h x. induction h as [|e h IH]; cbn [run own_since]; [done|].
    destruct (exempt_step (run P n0 h) e) as [->|[->|(next & i & p & E & G & ->)]]; intros X.
    - right. by apply IH.
    - by apply elem_of_nil in X.
    - apply elem_of_cons in X as [->|X]; [left; by exists next, i, p|right; by apply IH].
  Qed.
  (** A commit that succeeds ends every exemption. *)
  Theorem C78_exempt_cleared : forall n st c p pf f n' k, commit P n st c p pf f = (n', Ok k) -> n' <> n -> nd_exempt P n' = [].
  Proof using.
    intros n st c p pf f n' k. unfold commit. destruct (plan_commit P n st c p pf f) as [r|b q l r]; [by intros [= <- _]|].
    destruct (after_save P _ _); [|by intros [= <- ?]|by intros [= <- ?]].
    match goal with |- context [metadata_at P ?s ?m] => destruct (metadata_at P s m) end; by intros [= <- _].
  Qed.
End Props.

(** Non-vacuity: the chain of ConsensusProps2; the second proposal is accepted and acceptable, its transactions are in the log. *)
Example C78_example : acceptable X n1 p2 (x_ci 121) /\ nd_exempt X n1 = [] /\
  load_txs N (dec_txs X) (nd_wal X (check_block X n1 2 (x_digest (enc_proposal p2)) p2 (x_ci 121)).1) 2 (p_transactions_root p2) = Ok [43].
Proof.
  assert (NE : nd_exempt X n1 = []) by vmr. apply conj; [|apply conj; [exact NE|vmr]].
  apply (C78_checked X n1 2 (x_digest (enc_proposal p2))); [rewrite NE; apply not_elem_of_nil|]. apply consensus_chain_example.
Qed.
(** So a node accepts a proposal with another chain id, base fee, gas limit and proposer than the previous blocks have. *)
Theorem C78_unchecked_refuted : exists p, (check_block X n1 2 (proposal_hash X p) p (x_ci 121)).2 = Ok () /\ nd_exempt X n1 = [] /\
  p_chain_id p <> h_chain_id (BlockModel.b_header b1) /\ p_base_fee p <> h_base_fee (BlockModel.b_header b1) /\
  p_gas_limit p <> h_gas_limit (BlockModel.b_header b1) /\ p_prev_state_root p <> h_state_root (BlockModel.b_header b1).
Proof.
  exists (Proposal_ V0 (p_prev_hash p2) (repeat 77 20) (repeat 1 32) (p_transactions_root p2) (p_signed_txs_hash p2) (p_timestamp p2) (p_number p2)
    1 (p_extra_data p2) 0 (p_proof p2) 6 0 (p_tx_hashes p2)).
  assert (NE : nd_exempt X n1 = []) by vmr. apply conj; [|apply conj; [exact NE|]].
  - rewrite (C78_checked X) by (rewrite NE; apply not_elem_of_nil). destruct C78_example as ([A C D E F G] & _). by split.
  - apply conj; [by vm_compute|]. apply conj; [by vm_compute|]. apply conj; by vm_compute.
Qed.
(** A changed transaction list, a wrong root, a proof that does not verify and a hardfork nobody announced are refused. *)
Definition p2_with (root signed : bytes) (pf : proof) (ex : list extra_data) : proposal :=
  Proposal_ (p_version p2) (p_prev_hash p2) (p_proposer p2) (p_prev_state_root p2) root signed (p_timestamp p2) (p_number p2)
    (p_gas_limit p2) ex (p_base_fee p2) pf (p_chain_id p2) (p_call_system_script_count p2) (p_tx_hashes p2).
Example C78_refused_example :
  map (fun q => (check_block X n1 2 (x_digest (enc_proposal q)) q (CheckIn X 121 (fun _ => false) (fun _ _ => true) x_full)).2)
    [p2_with (p_transactions_root p2) (p_signed_txs_hash p2) (p_proof p2) [];
     p2_with (repeat 1 32) (p_signed_txs_hash p2) (p_proof p2) [];
     p2_with (p_transactions_root p2) (repeat 1 32) (p_proof p2) [];
     p2_with (p_transactions_root p2) (p_signed_txs_hash p2) (Proof_ 1 0 (pf_block_hash (p_proof p2)) [] [1;1;0;0]) [];
     p2_with (p_transactions_root p2) (p_signed_txs_hash p2) (p_proof p2) [[1]]] = [Ok (); Err; Err; Err; Err].
Proof. vmr. Qed.

Print Assumptions C78_checked.
Print Assumptions C78_agree.
Print Assumptions C78_logged.
Print Assumptions C78_recovered.
Print Assumptions C78_unchecked.
Print Assumptions C78_unchecked_refuted.
Print Assumptions C78_own.
Print Assumptions C78_exempt_cleared.
