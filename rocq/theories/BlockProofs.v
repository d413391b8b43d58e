(** Round trips of the block-level codecs. *)
From Verif Require Import Bytes BytesProofs Rlp RlpProofs TxModel TxSpec TxProofs BlockModel.

(** A codec that inverts on well-formed values small enough for RLP lengths. *)
Definition codec {A} (enc : A -> bytes) (dec : bytes -> option A) (wf : A -> Prop) : Prop :=
  forall x, wf x -> len (enc x) < 2^64 -> is_item (enc x) /\ dec (enc x) = Some x.

Definition u32_ok (n : N) : Prop := n < 2^32.

Lemma codec_u64 : codec enc_uint (dec_uint 8) u64_ok.
Proof. intros n H _. split; [now apply item_u64|now apply dec_u64]. Qed.
Lemma codec_u256 : codec enc_uint (dec_uint 32) u256_ok.
Proof. intros n H _. split; [now apply item_u256|now apply dec_u256]. Qed.
Lemma codec_u32 : codec enc_uint (dec_uint 4) u32_ok.
Proof.
  intros n H _. split.
  - apply item_u64. unfold u64_ok, u32_ok in *. lia.
  - apply dec_uint_enc; [exact H|lia].
Qed.
Lemma codec_u8 : codec enc_uint (dec_uint 1) (fun n => n < 256).
Proof. intros n H _. split; [now apply item_u8|now apply dec_u8]. Qed.
Lemma codec_bool : codec enc_bool dec_bool (fun _ => True).
Proof. intros b _ _. split; [apply is_item_bool|apply dec_bool_enc]. Qed.
Lemma codec_str : codec enc_str dec_value wf_bytes.
Proof.
  intros b W L. assert (len b < 2^64) by (eapply N.le_lt_trans; [apply enc_str_len|exact L]).
  split; [now apply is_item_str|now apply dec_value_str0].
Qed.
Lemma codec_hash k : N.of_nat k < 2^64 -> codec enc_hash (dec_hash k) (fixed k).
Proof. intros K b H _. split; [now apply (item_fixed k)|now apply dec_fixed]. Qed.

Lemma codec_list {A} (enc : A -> bytes) dec wf :
  codec enc dec wf -> codec (fun l => enc_list (map enc l)) (dec_list dec) (Forall wf).
Proof.
  intros C l W L. assert (LC := N.le_lt_trans _ _ _ (enc_list_len _) L).
  split; [now apply is_item_list|].
  apply dec_list_enc; [|exact LC]. rewrite Forall_forall in W. intros x Hx.
  apply C; [now apply W|]. eapply len_in; [apply in_map, Hx|exact LC].
Qed.

Lemma codec_option {A} (enc : A -> bytes) dec wf :
  codec enc dec wf ->
  codec (fun o => enc_option (option_map enc o)) (dec_option dec)
        (fun o => match o with Some x => wf x | None => True end).
Proof.
  intros C o W L. destruct o as [x|]; cbn [option_map enc_option] in *.
  - assert (LC := N.le_lt_trans _ _ _ (enc_list_len _) L).
    assert (len (enc x) < 2^64) as Lx by (eapply len_in; [|exact LC]; now left).
    destruct (C x W Lx) as [I D]. split; [now apply is_item_list|].
    apply (dec_option_enc enc dec (Some x)). intros y E. injection E as <-. auto.
  - split; [apply is_item_list; cbn [concat]; rewrite len_nil; lia|].
    apply (dec_option_enc enc dec None). intros y E. discriminate.
Qed.

Lemma field {A} (enc : A -> bytes) dec wf items x :
  codec enc dec wf -> wf x -> In (enc x) items -> len (concat items) < 2^64 ->
  is_item (enc x) /\ dec (enc x) = Some x.
Proof. intros C W I L. apply C; [exact W|]. eapply len_in; eauto. Qed.

(* ---- extra data, proof, version ---- *)
Lemma codec_extra : codec enc_extra dec_extra wf_bytes.
Proof.
  intros e W L. unfold enc_extra in *. assert (LC := N.le_lt_trans _ _ _ (enc_list_len _) L).
  destruct (field enc_str dec_value wf_bytes [enc_str e] e codec_str W (or_introl eq_refl) LC) as [I D].
  split; [now apply is_item_list|]. unfold dec_extra.
  rewrite (val_at_list _ [enc_str e] 0 (enc_str e)); auto.
Qed.

Lemma codec_version : codec enc_version dec_version (fun _ => True).
Proof. intros [] _ _. split; [apply is_item_list; vm_compute; reflexivity|reflexivity]. Qed.

Definition wf_proof (p : proof) : Prop :=
  u64_ok (pf_number p) /\ u64_ok (pf_round p) /\ fixed 32 (pf_block_hash p) /\
  wf_bytes (pf_signature p) /\ wf_bytes (pf_bitmap p).

Lemma codec_proof : codec enc_proof dec_proof wf_proof.
Proof.
  intros p (W0 & W1 & W2 & W3 & W4) L. unfold enc_proof in *.
  assert (LC := N.le_lt_trans _ _ _ (enc_list_len _) L).
  split; [now apply is_item_list|].
  destruct (field _ _ _ (proof_items p) _ codec_u64 W0) as [I0 D0]; [unfold proof_items; in_tac|exact LC|].
  destruct (field _ _ _ (proof_items p) _ codec_u64 W1) as [I1 D1]; [unfold proof_items; in_tac|exact LC|].
  destruct (field _ _ _ (proof_items p) _ (codec_hash 32 ltac:(lia)) W2) as [I2 D2]; [unfold proof_items; in_tac|exact LC|].
  destruct (field _ _ _ (proof_items p) _ codec_str W3) as [I3 D3]; [unfold proof_items; in_tac|exact LC|].
  destruct (field _ _ _ (proof_items p) _ codec_str W4) as [I4 D4]; [unfold proof_items; in_tac|exact LC|].
  assert (Forall is_item (proof_items p)) as HI by (unfold proof_items; repeat constructor; assumption).
  unfold dec_proof.
  rewrite (val_at_list _ _ 0 _ HI LC eq_refl), D0; cbn [obind].
  rewrite (val_at_list _ _ 1 _ HI LC eq_refl), D1; cbn [obind].
  rewrite (val_at_list _ _ 2 _ HI LC eq_refl), D2; cbn [obind].
  rewrite (val_at_list _ _ 3 _ HI LC eq_refl), D3; cbn [obind].
  rewrite (val_at_list _ _ 4 _ HI LC eq_refl), D4; cbn [obind].
  now destruct p.
Qed.

(* ---- header ---- *)
Definition wf_header (h : header) : Prop :=
  fixed 32 (h_prev_hash h) /\ fixed 20 (h_proposer h) /\ fixed 32 (h_state_root h) /\
  fixed 32 (h_transactions_root h) /\ fixed 32 (h_signed_txs_hash h) /\
  fixed 32 (h_receipts_root h) /\ fixed 256 (h_log_bloom h) /\ u64_ok (h_timestamp h) /\
  u64_ok (h_number h) /\ u64_ok (h_gas_used h) /\ u64_ok (h_gas_limit h) /\
  Forall wf_bytes (h_extra_data h) /\ u64_ok (h_base_fee h) /\ wf_proof (h_proof h) /\
  u32_ok (h_call_system_script_count h) /\ u64_ok (h_chain_id h).

Ltac rd k HI LC D := rewrite (val_at_list _ _ k _ HI LC eq_refl), D; cbn [obind].

Lemma codec_header : codec enc_hdr dec_hdr wf_header.
Proof.
  intros h (W1 & W2 & W3 & W4 & W5 & W6 & W7 & W8 & W9 & W10 & W11 & W12 & W13 & W14 & W15 & W16) L.
  unfold enc_hdr in *. assert (LC := N.le_lt_trans _ _ _ (enc_list_len _) L).
  split; [now apply is_item_list|].
  set (items := header_items h) in *.
  assert (forall x, In x (header_items h) -> In x items) as Hin by auto.
  pose proof (codec_hash 32 ltac:(lia)) as C32. pose proof (codec_hash 20 ltac:(lia)) as C20.
  pose proof (codec_hash 256 ltac:(lia)) as C256.
  destruct (field _ _ _ items (h_version h) codec_version I) as [I0 D0]; [apply Hin; unfold header_items; in_tac|exact LC|].
  destruct (field _ _ _ items _ C32 W1) as [I1 D1]; [apply Hin; unfold header_items; in_tac|exact LC|].
  destruct (field _ _ _ items _ C20 W2) as [I2 D2]; [apply Hin; unfold header_items; in_tac|exact LC|].
  destruct (field _ _ _ items _ C32 W3) as [I3 D3]; [apply Hin; unfold header_items; in_tac|exact LC|].
  destruct (field _ _ _ items _ C32 W4) as [I4 D4]; [apply Hin; unfold header_items; in_tac|exact LC|].
  destruct (field _ _ _ items _ C32 W5) as [I5 D5]; [apply Hin; unfold header_items; in_tac|exact LC|].
  destruct (field _ _ _ items _ C32 W6) as [I6 D6]; [apply Hin; unfold header_items; in_tac|exact LC|].
  destruct (field _ _ _ items _ C256 W7) as [I7 D7]; [apply Hin; unfold header_items; in_tac|exact LC|].
  destruct (field _ _ _ items _ codec_u64 W8) as [I8 D8]; [apply Hin; unfold header_items; in_tac|exact LC|].
  destruct (field _ _ _ items _ codec_u64 W9) as [I9 D9]; [apply Hin; unfold header_items; in_tac|exact LC|].
  destruct (field _ _ _ items _ codec_u64 W10) as [I10 D10]; [apply Hin; unfold header_items; in_tac|exact LC|].
  destruct (field _ _ _ items _ codec_u64 W11) as [I11 D11]; [apply Hin; unfold header_items; in_tac|exact LC|].
  destruct (field _ _ _ items _ (codec_list _ _ _ codec_extra) W12) as [I12 D12]; [apply Hin; unfold header_items; in_tac|exact LC|].
  destruct (field _ _ _ items _ codec_u64 W13) as [I13 D13]; [apply Hin; unfold header_items; in_tac|exact LC|].
  destruct (field _ _ _ items _ codec_proof W14) as [I14 D14]; [apply Hin; unfold header_items; in_tac|exact LC|].
  destruct (field _ _ _ items _ codec_u32 W15) as [I15 D15]; [apply Hin; unfold header_items; in_tac|exact LC|].
  destruct (field _ _ _ items _ codec_u64 W16) as [I16 D16]; [apply Hin; unfold header_items; in_tac|exact LC|].
  assert (Forall is_item items) as HI by (unfold items, header_items; repeat constructor; assumption).
  unfold dec_hdr.
  rd 0%nat HI LC D0. rd 1%nat HI LC D1. rd 2%nat HI LC D2. rd 3%nat HI LC D3. rd 4%nat HI LC D4.
  rd 5%nat HI LC D5. rd 6%nat HI LC D6. rd 7%nat HI LC D7. rd 8%nat HI LC D8. rd 9%nat HI LC D9.
  rd 10%nat HI LC D10. rd 11%nat HI LC D11. rd 12%nat HI LC D12. rd 13%nat HI LC D13.
  rd 14%nat HI LC D14. rd 15%nat HI LC D15. rd 16%nat HI LC D16.
  now destruct h.
Qed.

(* ---- block ---- *)
Definition wf_block (b : block) : Prop :=
  wf_header (b_header b) /\ Forall (fixed 32) (b_tx_hashes b).
Definition block_items (b : block) : list bytes :=
  [enc_hdr (b_header b); enc_list (map enc_hash (b_tx_hashes b))].
Lemma codec_block : codec enc_block dec_block wf_block.
Proof.
  intros b (W0 & W1) L. unfold enc_block in *. change [enc_hdr (b_header b); enc_list (map enc_hash (b_tx_hashes b))] with (block_items b) in *.
  assert (LC := N.le_lt_trans _ _ _ (enc_list_len _) L).
  split; [now apply is_item_list|].
  set (items := block_items b) in *.
  assert (forall x, In x (block_items b) -> In x items) as Hin by auto.
  destruct (field _ _ _ items _ (codec_header) W0) as [I0 D0]; [apply Hin; unfold block_items; in_tac|exact LC|].
  destruct (field _ _ _ items _ (codec_list _ _ _ (codec_hash 32 ltac:(lia))) W1) as [I1 D1]; [apply Hin; unfold block_items; in_tac|exact LC|].
  assert (Forall is_item items) as HI by (unfold items, block_items; repeat constructor; assumption).
  unfold dec_block.
  rd 0%nat HI LC D0.
  rd 1%nat HI LC D1.
  now destruct b.
Qed.

Lemma codec_blocks : codec enc_blocks dec_blocks (Forall wf_block).
Proof. exact (codec_list _ _ _ codec_block). Qed.

(* ---- proposal ---- *)
Definition wf_proposal (p : proposal) : Prop :=
  fixed 32 (p_prev_hash p) /\ fixed 20 (p_proposer p) /\ fixed 32 (p_prev_state_root p) /\
  fixed 32 (p_transactions_root p) /\ fixed 32 (p_signed_txs_hash p) /\ u64_ok (p_timestamp p) /\
  u64_ok (p_number p) /\ u64_ok (p_gas_limit p) /\ Forall wf_bytes (p_extra_data p) /\
  wf_proof (p_proof p) /\ u32_ok (p_call_system_script_count p) /\ Forall (fixed 32) (p_tx_hashes p) /\
  u64_ok (p_base_fee p) /\ u64_ok (p_chain_id p).

(** Decoding gives back everything except the two fields taken from node constants. *)
Lemma proposal_decode p cid :
  wf_proposal p -> len (enc_proposal p) < 2^64 ->
  dec_proposal cid (enc_proposal p) =
  Some (Proposal_ (p_version p) (p_prev_hash p) (p_proposer p) (p_prev_state_root p)
    (p_transactions_root p) (p_signed_txs_hash p) (p_timestamp p) (p_number p) (p_gas_limit p)
    (p_extra_data p) BASE_FEE_PER_GAS (p_proof p) cid (p_call_system_script_count p) (p_tx_hashes p)).
Proof.
  intros (W1 & W2 & W3 & W4 & W5 & W6 & W7 & W8 & W9 & W10 & W11 & W12 & _ & _) L. unfold enc_proposal in *.
  assert (LC := N.le_lt_trans _ _ _ (enc_list_len _) L).
  assert (p_gas_limit p mod 2^64 = p_gas_limit p) as EG by (apply N.mod_small; exact W8).
  set (items := proposal_items p) in *.
  assert (forall x, In x (proposal_items p) -> In x items) as Hin by auto.
  destruct (field _ _ _ items (p_version p) codec_version I) as [I0 D0]; [apply Hin; unfold proposal_items; rewrite EG; in_tac|exact LC|].
  destruct (field _ _ _ items _ (codec_hash 32 ltac:(lia)) W1) as [I1 D1]; [apply Hin; unfold proposal_items; rewrite EG; in_tac|exact LC|].
  destruct (field _ _ _ items _ (codec_hash 20 ltac:(lia)) W2) as [I2 D2]; [apply Hin; unfold proposal_items; rewrite EG; in_tac|exact LC|].
  destruct (field _ _ _ items _ (codec_hash 32 ltac:(lia)) W3) as [I3 D3]; [apply Hin; unfold proposal_items; rewrite EG; in_tac|exact LC|].
  destruct (field _ _ _ items _ (codec_hash 32 ltac:(lia)) W4) as [I4 D4]; [apply Hin; unfold proposal_items; rewrite EG; in_tac|exact LC|].
  destruct (field _ _ _ items _ (codec_hash 32 ltac:(lia)) W5) as [I5 D5]; [apply Hin; unfold proposal_items; rewrite EG; in_tac|exact LC|].
  destruct (field _ _ _ items _ (codec_u64) W6) as [I6 D6]; [apply Hin; unfold proposal_items; rewrite EG; in_tac|exact LC|].
  destruct (field _ _ _ items _ (codec_u64) W7) as [I7 D7]; [apply Hin; unfold proposal_items; rewrite EG; in_tac|exact LC|].
  destruct (field _ _ _ items _ (codec_u64) W8) as [I8 D8]; [apply Hin; unfold proposal_items; rewrite EG; in_tac|exact LC|].
  destruct (field _ _ _ items _ (codec_list _ _ _ codec_extra) W9) as [I9 D9]; [apply Hin; unfold proposal_items; rewrite EG; in_tac|exact LC|].
  destruct (field _ _ _ items _ (codec_proof) W10) as [I10 D10]; [apply Hin; unfold proposal_items; rewrite EG; in_tac|exact LC|].
  destruct (field _ _ _ items _ (codec_u32) W11) as [I11 D11]; [apply Hin; unfold proposal_items; rewrite EG; in_tac|exact LC|].
  destruct (field _ _ _ items _ (codec_list _ _ _ (codec_hash 32 ltac:(lia))) W12) as [I12 D12]; [apply Hin; unfold proposal_items; rewrite EG; in_tac|exact LC|].
  assert (Forall is_item items) as HI by (unfold items, proposal_items; rewrite EG; repeat constructor; assumption).
  unfold dec_proposal.
  rd 0%nat HI LC D0.
  rd 1%nat HI LC D1.
  rd 2%nat HI LC D2.
  rd 3%nat HI LC D3.
  rd 4%nat HI LC D4.
  rd 5%nat HI LC D5.
  rd 6%nat HI LC D6.
  rd 7%nat HI LC D7.
  rewrite (val_at_list _ _ 8%nat _ HI LC eq_refl), EG, D8; cbn [obind].
  rd 9%nat HI LC D9.
  rd 10%nat HI LC D10.
  rd 11%nat HI LC D11.
  rd 12%nat HI LC D12.
  reflexivity.
Qed.

(* ---- log ---- *)
Definition wf_log (l : log) : Prop :=
  fixed 20 (lg_address l) /\ Forall (fixed 32) (lg_topics l) /\ wf_bytes (lg_data l).
Lemma codec_log : codec enc_log dec_log wf_log.
Proof.
  intros l (W0 & W1 & W2) L. unfold enc_log in *.
  assert (LC := N.le_lt_trans _ _ _ (enc_list_len _) L).
  split; [now apply is_item_list|].
  set (items := log_items l) in *.
  assert (forall x, In x (log_items l) -> In x items) as Hin by auto.
  destruct (field _ _ _ items _ (codec_hash 20 ltac:(lia)) W0) as [I0 D0]; [apply Hin; unfold log_items; in_tac|exact LC|].
  destruct (field _ _ _ items _ (codec_list _ _ _ (codec_hash 32 ltac:(lia))) W1) as [I1 D1]; [apply Hin; unfold log_items; in_tac|exact LC|].
  destruct (field _ _ _ items _ (codec_str) W2) as [I2 D2]; [apply Hin; unfold log_items; in_tac|exact LC|].
  assert (Forall is_item items) as HI by (unfold items, log_items; repeat constructor; assumption).
  unfold dec_log.
  rd 0%nat HI LC D0.
  rd 1%nat HI LC D1.
  rd 2%nat HI LC D2.
  now destruct l.
Qed.

(* ---- exit reason ---- *)
Section Exit.
Variable shape : N -> option xshape.
Definition wf_xerr (e : xerr) : Prop :=
  xe_tag e < 2^32 /\
  match shape (xe_tag e), xe_payload e with
  | Some SUnit, PUnit => True
  | Some SByte, PByte b => b < 256
  | Some SStr, PStr s => wf_bytes s
  | _, _ => False
  end.
Definition wf_exit (x : exit_reason) : Prop :=
  match x with
  | XSucceed k => k < 3 | XError e => wf_xerr e | XRevert k => k < 1
  | XFatal t => t < 2 | XFatalErr e => wf_xerr e | XFatalOther s => wf_bytes s
  end.

Lemma take_le_fixed k n r : n < 256 ^ N.of_nat k -> take_le k (le_fixed k n ++ r) = Some (n, r).
Proof.
  intros H. unfold take_le. rewrite app_length, le_fixed_length.
  rewrite (proj2 (Nat.ltb_ge _ _)) by lia.
  rewrite firstn_app_exact, skipn_app_exact by apply le_fixed_length.
  now rewrite le_val_fixed.
Qed.
Lemma take_u32 n r : n < 2^32 -> take_le 4 (u32le n ++ r) = Some (n, r).
Proof. intros H. apply take_le_fixed. exact H. Qed.
Lemma take_str_enc s r : len s < 2^64 -> take_str (bc_str s ++ r) = Some s.
Proof.
  intros H. unfold take_str, bc_str. rewrite <- app_assoc, take_le_fixed by exact H. cbn [obind].
  rewrite len_app. destruct (_ <? _) eqn:E; [lia|].
  unfold len. rewrite Nat2N.id, firstn_app_exact by reflexivity. reflexivity.
Qed.
Lemma de_xerr_ser e : wf_xerr e -> len (ser_xerr e) < 2^64 -> de_xerr shape (ser_xerr e) = Some e.
Proof.
  destruct e as [t p]. unfold wf_xerr, ser_xerr, de_xerr. cbn [xe_tag xe_payload]. intros [Ht W] L.
  rewrite take_u32 by exact Ht. cbn [obind].
  destruct (shape t) as [[]|]; destruct p; try contradiction; try reflexivity; cbn [app obind].
  cbn [obind]. rewrite len_app in L. unfold bc_str in L. rewrite len_app in L.
  rewrite <- (app_nil_r (bc_str s)), take_str_enc by lia. reflexivity.
Qed.
Lemma de_exit_ser x : wf_exit x -> len (ser_exit x) < 2^64 -> de_exit shape (ser_exit x) = Some x.
Proof.
  destruct x as [k|e|k|t|e|s]; cbn [wf_exit ser_exit]; intros W L; unfold de_exit;
    rewrite take_u32 by (vm_compute; reflexivity); cbn [obind].
  - rewrite <- (app_nil_r (u32le k)), take_u32 by lia. cbn [obind].
    destruct (k <? 3) eqn:E; [reflexivity|lia].
  - rewrite de_xerr_ser; [reflexivity|exact W|]. rewrite len_app in L. lia.
  - rewrite <- (app_nil_r (u32le k)), take_u32 by lia. cbn [obind].
    destruct (k <? 1) eqn:E; [reflexivity|lia].
  - rewrite <- (app_nil_r (u32le t)), take_u32 by lia. cbn [obind].
    assert (t = 0 \/ t = 1) as [->| ->] by lia; reflexivity.
  - rewrite take_u32 by (vm_compute; reflexivity). cbn [obind].
    rewrite de_xerr_ser; [reflexivity|exact W|]. rewrite !len_app in L. lia.
  - rewrite take_u32 by (vm_compute; reflexivity). cbn [obind].
    rewrite !len_app in L. unfold bc_str in L. rewrite len_app in L.
    rewrite <- (app_nil_r (bc_str s)), take_str_enc by lia. reflexivity.
Qed.
Lemma wf_ser_xerr e : wf_xerr e -> wf_bytes (ser_xerr e).
Proof.
  destruct e as [t p]. unfold wf_xerr, ser_xerr. cbn [xe_tag xe_payload]. intros [_ W].
  apply Forall_app. split; [apply le_fixed_wf|].
  destruct (shape t) as [[]|]; destruct p; try contradiction; try reflexivity; cbn [app obind].
  - constructor.
  - constructor; [exact W|constructor].
  - apply Forall_app. split; [apply le_fixed_wf|exact W].
Qed.
Lemma wf_ser_exit x : wf_exit x -> wf_bytes (ser_exit x).
Proof.
  assert (forall n, wf_bytes (u32le n)) as U by (intros; apply le_fixed_wf).
  destruct x; cbn [wf_exit ser_exit]; intros W.
  all: apply wf_bytes_app; split; [apply U|]; auto using wf_ser_xerr.
  - apply wf_bytes_app; split; auto using wf_ser_xerr.
  - apply wf_bytes_app; split; [apply U|]. apply wf_bytes_app; split; [apply le_fixed_wf|exact W].
Qed.

(* ---- receipt ---- *)
Definition wf_receipt (r : receipt) : Prop :=
  fixed 32 (r_tx_hash r) /\ u64_ok (r_block_number r) /\ fixed 32 (r_block_hash r) /\
  u32_ok (r_tx_index r) /\ fixed 32 (r_state_root r) /\ u64_ok (r_used_gas r) /\
  fixed 256 (r_logs_bloom r) /\ Forall wf_log (r_logs r) /\ u32_ok (r_log_index r) /\
  match r_code_address r with Some a => fixed 32 a | None => True end /\
  fixed 20 (r_sender r) /\ wf_exit (r_ret r).
Lemma codec_receipt : codec enc_receipt (dec_receipt shape) wf_receipt.
Proof.
  intros r (W0 & W1 & W2 & W3 & W4 & W5 & W6 & W7 & W8 & W9 & W10 & W11) L. unfold enc_receipt in *.
  assert (LC := N.le_lt_trans _ _ _ (enc_list_len _) L).
  split; [now apply is_item_list|].
  set (items := receipt_items r) in *.
  assert (forall x, In x (receipt_items r) -> In x items) as Hin by auto.
  destruct (field _ _ _ items _ (codec_hash 32 ltac:(lia)) W0) as [I0 D0]; [apply Hin; unfold receipt_items; in_tac|exact LC|].
  destruct (field _ _ _ items _ (codec_u64) W1) as [I1 D1]; [apply Hin; unfold receipt_items; in_tac|exact LC|].
  destruct (field _ _ _ items _ (codec_hash 32 ltac:(lia)) W2) as [I2 D2]; [apply Hin; unfold receipt_items; in_tac|exact LC|].
  destruct (field _ _ _ items _ (codec_u32) W3) as [I3 D3]; [apply Hin; unfold receipt_items; in_tac|exact LC|].
  destruct (field _ _ _ items _ (codec_hash 32 ltac:(lia)) W4) as [I4 D4]; [apply Hin; unfold receipt_items; in_tac|exact LC|].
  destruct (field _ _ _ items _ (codec_u64) W5) as [I5 D5]; [apply Hin; unfold receipt_items; in_tac|exact LC|].
  destruct (field _ _ _ items _ (codec_hash 256 ltac:(lia)) W6) as [I6 D6]; [apply Hin; unfold receipt_items; in_tac|exact LC|].
  destruct (field _ _ _ items _ (codec_list _ _ _ codec_log) W7) as [I7 D7]; [apply Hin; unfold receipt_items; in_tac|exact LC|].
  destruct (field _ _ _ items _ (codec_u32) W8) as [I8 D8]; [apply Hin; unfold receipt_items; in_tac|exact LC|].
  destruct (field _ _ _ items (r_code_address r) (codec_option _ _ _ (codec_hash 32 ltac:(lia))) W9) as [I9 D9]; [apply Hin; unfold receipt_items; in_tac|exact LC|].
  destruct (field _ _ _ items _ (codec_hash 20 ltac:(lia)) W10) as [I10 D10]; [apply Hin; unfold receipt_items; in_tac|exact LC|].
  assert (WX := wf_ser_exit _ W11).
  destruct (field _ _ _ items _ codec_str WX) as [I11 D11]; [apply Hin; unfold receipt_items; in_tac|exact LC|].
  destruct (field _ _ _ items (r_removed r) codec_bool I) as [I12 D12]; [apply Hin; unfold receipt_items; in_tac|exact LC|].
  assert (Forall is_item items) as HI by (unfold items, receipt_items; repeat constructor; assumption).
  assert (len (ser_exit (r_ret r)) < 2^64) as LX
    by (eapply len_str_in; [|exact LC]; apply Hin; unfold receipt_items; in_tac).
  unfold dec_receipt. rewrite item_count_list by assumption.
  change (length items) with 13%nat. cbn [obind Nat.eqb].
  rd 0%nat HI LC D0.
  rd 1%nat HI LC D1.
  rd 2%nat HI LC D2.
  rd 3%nat HI LC D3.
  rd 4%nat HI LC D4.
  rd 5%nat HI LC D5.
  rd 6%nat HI LC D6.
  rd 7%nat HI LC D7.
  rd 8%nat HI LC D8.
  rd 9%nat HI LC D9.
  rd 10%nat HI LC D10.
  rd 11%nat HI LC D11.
  rewrite (de_exit_ser _ W11 LX); cbn [obind].
  rd 12%nat HI LC D12.
  now destruct r.
Qed.

(* ---- execution result: never decodes ---- *)
Definition wf_txresp (r : tx_resp) : Prop :=
  wf_exit (x_exit r) /\ wf_bytes (x_ret r) /\ u64_ok (x_gas_used r) /\ u64_ok (x_remain_gas r) /\
  u256_ok (x_fee_cost r) /\ Forall wf_log (x_logs r) /\
  match x_code_address r with Some a => fixed 32 a | None => True end.

Lemma view_items_app items e :
  Forall is_item items -> items <> [] -> is_item e -> len (concat items) < 2^64 ->
  view_items (enc_list items ++ e) = items ++ [e].
Proof.
  intros H N E L. unfold view_items. rewrite is_list_enc_list, payload_info_list by assumption.
  destruct items as [|i0 items]; [congruence|]. inversion H as [|? ? H0 HR]; subst.
  set (p := concat (i0 :: items)) in *. unfold enc_list. fold p.
  set (hd := enc_header 192 (len p)).
  rewrite <- app_assoc, skipn_app_exact by reflexivity.
  rewrite firstn_app_exact by reflexivity.
  unfold p at 1. cbn [concat]. rewrite next_item_app by assumption.
  rewrite skipn_app, skipn_all2 by lia. cbn [app].
  replace (length hd + length i0 - length hd)%nat with (length i0) by lia.
  unfold p. cbn [concat]. rewrite <- app_assoc, skipn_app_exact by reflexivity.
  replace (concat items ++ e) with (concat (items ++ [e])) by (rewrite concat_app; cbn; now rewrite app_nil_r).
  rewrite parse_items_all; [reflexivity| |].
  - apply Forall_app. split; [exact HR|now repeat constructor].
  - apply items_length_le. apply Forall_app. split; [exact HR|now repeat constructor].
Qed.

Lemma txresp_never_decodes r :
  wf_txresp r -> len (enc_txresp r) < 2^64 -> dec_txresp shape (enc_txresp r) = None.
Proof.
  intros (W0 & W1 & W2 & W3 & W4 & W5 & W6) L. unfold enc_txresp in *. rewrite len_app in L.
  assert (LC : len (concat (txresp_items r)) < 2^64) by (pose proof (enc_list_len (txresp_items r)); lia).
  set (items := txresp_items r) in *.
  assert (forall x, In x (txresp_items r) -> In x items) as Hin by auto.
  assert (WX := wf_ser_exit _ W0).
  destruct (field _ _ _ items _ codec_str WX) as [I0 D0]; [apply Hin; unfold txresp_items; in_tac|exact LC|].
  destruct (field _ _ _ items _ (codec_str) W1) as [I1 D1]; [apply Hin; unfold txresp_items; in_tac|exact LC|].
  destruct (field _ _ _ items _ (codec_u64) W2) as [I2 D2]; [apply Hin; unfold txresp_items; in_tac|exact LC|].
  destruct (field _ _ _ items _ (codec_u64) W3) as [I3 D3]; [apply Hin; unfold txresp_items; in_tac|exact LC|].
  destruct (field _ _ _ items _ (codec_u256) W4) as [I4 D4]; [apply Hin; unfold txresp_items; in_tac|exact LC|].
  destruct (field _ _ _ items _ (codec_list _ _ _ codec_log) W5) as [I5 D5]; [apply Hin; unfold txresp_items; in_tac|exact LC|].
  destruct (field _ _ _ items (x_code_address r) (codec_option _ _ _ (codec_hash 32 ltac:(lia))) W6) as [I6 D6]; [apply Hin; unfold txresp_items; in_tac|exact LC|].
  assert (Forall is_item items) as HI by (unfold items, txresp_items; repeat constructor; assumption).
  unfold dec_txresp, item_count. rewrite is_list_enc_list, view_items_app.
  - reflexivity.
  - exact HI.
  - discriminate.
  - apply is_item_bool.
  - exact LC.
Qed.
End Exit.
