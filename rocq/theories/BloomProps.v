(** Property theorems C08 (blooms), C09 (keys) and C54 (receipt generation). *)
From Verif Require Import Bytes BytesProofs Rlp RlpProofs TxModel TxSpec BlockModel BlockProofs
  BlockProps BloomModel BloomProofs Keccak.

(* ================= C08 ================= *)
(** Receipt part of the claim: every generated receipt's bloom tests positive for the address and
    every topic of every log in it, whatever the hash function. *)
Theorem C08_receipt_bloom : forall digest b txs e rs ls rc l x,
  generate_receipts_and_logs digest b txs e = Ok (rs, ls) ->
  In rc rs -> In l (r_logs rc) -> x = lg_address l \/ In x (lg_topics l) ->
  bloom_tests_positive digest (r_logs_bloom rc) x.
Proof.
  intros digest b txs e rs ls rc l x H HR HL HX. unfold generate_receipts_and_logs in H.
  destruct (gen_receipts digest b 0 0 txs (er_tx_resp e)) as [o| |] eqn:G; try discriminate.
  injection H as -> <-. apply gen_receipts_spec in G as [GL G].
  apply In_nth_error in HR as [k HK].
  assert (k < length rs)%nat as Lk by (apply nth_error_Some; congruence).
  destruct (nth_error txs k) as [[h s]|] eqn:ET; [|apply nth_error_None in ET; lia].
  destruct (nth_error (er_tx_resp e) k) as [r|] eqn:ER; [|apply nth_error_None in ER; lia].
  destruct (G k h s r ET ER) as (rc' & K' & _ & _ & EL & EB & _).
  rewrite HK in K'. injection K' as <-. rewrite EB. intros j Hj.
  apply logs_bloom_spec; [eapply m3_bits_bound; eauto|]. exists l, x. rewrite EL in HL.
  split; [assumption|]. split; [|assumption]. destruct HX as [->|HX]; [now left|now right].
Qed.
Print Assumptions C08_receipt_bloom.

(** And it is exactly that set of bits: no bit is set without an address or topic setting it. *)
Theorem C08_receipt_bloom_exact : forall digest logs j, j < 2048 ->
  bloom_has (logs_bloom digest logs) j <->
  exists l x, In l logs /\ (x = lg_address l \/ In x (lg_topics l)) /\ In j (m3_bits (digest x)).
Proof.
  intros digest logs j J. rewrite logs_bloom_spec by assumption. unfold log_entries. cbn [In].
  split; intros (l & x & Hl & Hx & Hj); exists l, x; intuition.
Qed.
Print Assumptions C08_receipt_bloom_exact.

(** Header part: false, with the real Keccak-256.  The header's bloom is built from digests of RLP
    lists instead of the receipts' blooms. *)
Definition bl_log : log := Log_ (repeat 0x11 20) [repeat 0x22 32] [1].
Definition bl_resp : tx_resp := TxResp_ (XSucceed 0) [] 21000 0 0 [bl_log] None false.
Definition bl_exec : exec_resp := ExecResp_ (repeat 3 32) (repeat 4 32) 21000 [bl_resp].
Definition bl_header_bloom : bytes :=
  Eval vm_compute in h_log_bloom (b_header (block_new keccak256 ex_proposal bl_exec)).
Definition bl_digest : bytes := Eval vm_compute in keccak256 (lg_address bl_log).

Theorem C08_header_bloom_refuted : exists p e r l,
  In r (er_tx_resp e) /\ In l (x_logs r) /\
  ~ bloom_tests_positive keccak256 (h_log_bloom (b_header (block_new keccak256 p e))) (lg_address l).
Proof.
  exists ex_proposal, bl_exec, bl_resp, bl_log.
  split; [now left|]. split; [now left|]. intros H.
  assert (h_log_bloom (b_header (block_new keccak256 ex_proposal bl_exec)) = bl_header_bloom) as E1
    by (vm_cast_no_check (eq_refl bl_header_bloom)).
  assert (keccak256 (lg_address bl_log) = bl_digest) as E2 by (vm_cast_no_check (eq_refl bl_digest)).
  unfold bloom_tests_positive in H. rewrite E1, E2 in H.
  assert (forallb (fun b => N.testbit (be_val bl_header_bloom) b) (m3_bits bl_digest) = false) as E3
    by (vm_compute; reflexivity).
  assert (forallb (fun b => N.testbit (be_val bl_header_bloom) b) (m3_bits bl_digest) = true) as E4
    by (apply forallb_forall; exact H).
  congruence.
Qed.
Print Assumptions C08_header_bloom_refuted.

Example C08_nonvacuous : exists rs ls,
  generate_receipts_and_logs keccak256 ex_block [(repeat 1 32, repeat 2 20)] bl_exec = Ok (rs, ls) /\
  ls = [[bl_log]].
Proof. do 2 eexists. split; reflexivity. Qed.

(* ================= C54 ================= *)
(** Receipts line up with transactions: the k-th receipt is that of the k-th transaction with its
    execution result, and its first log index is the number of logs of the preceding transactions. *)
Theorem C54_receipts_aligned : forall digest b txs e rs ls,
  generate_receipts_and_logs digest b txs e = Ok (rs, ls) ->
  length txs = length (er_tx_resp e) -> N.of_nat (length txs) < 2^32 ->
  Forall (fun r => N.of_nat (length (x_logs r)) < 2^32) (er_tx_resp e) ->
  length rs = length txs /\ ls = map x_logs (er_tx_resp e) /\
  forall k h s r, nth_error txs k = Some (h, s) -> nth_error (er_tx_resp e) k = Some r ->
  exists rc, nth_error rs k = Some rc /\ r_tx_hash rc = h /\ r_sender rc = s /\
    r_logs rc = x_logs r /\ r_used_gas rc = x_gas_used r /\ r_ret rc = x_exit r /\
    r_code_address rc = x_code_address r /\ r_block_hash rc = digest (enc_hdr (b_header b)) /\
    r_block_number rc = h_number (b_header b) /\ r_tx_index rc = N.of_nat k /\
    r_log_index rc = N.of_nat (length (concat (firstn k ls))).
Proof.
  intros digest b txs e rs ls H HL HN HF. unfold generate_receipts_and_logs in H.
  destruct (gen_receipts digest b 0 0 txs (er_tx_resp e)) as [o| |] eqn:G; try discriminate.
  injection H as -> <-. apply gen_receipts_spec in G as [GL G].
  assert (map r_logs rs = map x_logs (er_tx_resp e)) as EM.
  { apply nth_error_ext. intros k. rewrite !nth_error_map.
    destruct (nth_error txs k) as [[h s]|] eqn:ET.
    - assert (k < length txs)%nat as Lk by (apply nth_error_Some; congruence).
      destruct (nth_error (er_tx_resp e) k) as [r|] eqn:ER; [|apply nth_error_None in ER; lia].
      destruct (G k h s r ET ER) as (rc' & K' & _ & _ & EL & _). rewrite K'. cbn. now rewrite EL.
    - apply nth_error_None in ET. rewrite (proj2 (nth_error_None rs k)) by lia.
      now rewrite (proj2 (nth_error_None (er_tx_resp e) k)) by lia. }
  split; [lia|]. split; [exact EM|]. intros k h s r HT HR.
  assert (k < length txs)%nat as Lk by (apply nth_error_Some; congruence).
  destruct (G k h s r HT HR) as (rc & K & ?&?&?&?&?&?&?&?&?&?&?&TI&LI).
  exists rc. repeat split; auto.
  - rewrite TI, N.mod_small; lia.
  - rewrite LI by assumption. unfold sum_logs. rewrite EM, firstn_map, <- flat_map_concat_map. lia.
Qed.
Print Assumptions C54_receipts_aligned.

(** Receipt generation crashes only when the block's logs overflow the 32-bit counter. *)
Theorem C54_no_crash : forall digest b txs e,
  N.of_nat (length (concat (map x_logs (er_tx_resp e)))) < 2^32 ->
  exists rs ls, generate_receipts_and_logs digest b txs e = Ok (rs, ls).
Proof.
  intros digest b txs e. unfold generate_receipts_and_logs.
  generalize (er_tx_resp e) as rs. intros rs.
  assert (forall txs rs idx li,
    li + N.of_nat (length (concat (map x_logs rs))) < 2^32 ->
    exists o, gen_receipts digest b idx li txs rs = Ok o) as P.
  { intros t. induction t as [|[h s] t IH]; intros r idx li L; cbn [gen_receipts]; [eauto|].
    destruct r as [|r0 r]; [eauto|]. cbn [map concat] in L. rewrite app_length in L.
    rewrite N.mod_small by lia.
    destruct (_ <? 2^32) eqn:E; [|lia].
    destruct (IH r (idx + 1) (li + N.of_nat (length (x_logs r0)))) as [o ->]; [lia|]. eauto. }
  intros L. destruct (P txs rs 0 0) as [o ->]; [lia|]. eauto.
Qed.
Print Assumptions C54_no_crash.

Example C54_nonvacuous : exists rs ls,
  generate_receipts_and_logs keccak256 ex_block
    [(repeat 1 32, repeat 2 20); (repeat 5 32, repeat 6 20); (repeat 7 32, repeat 8 20)]
    (ExecResp_ (repeat 3 32) (repeat 4 32) 21000 [bl_resp; ex_txresp; bl_resp]) = Ok (rs, ls) /\
  map r_log_index rs = [0; 1; 3] /\ map r_tx_index rs = [0; 1; 2].
Proof. do 2 eexists. split; [reflexivity|]. split; vm_compute; reflexivity. Qed.

(* ================= C09 ================= *)
(** Block-number keys: injective, decode back, and sort like the numbers. *)
Theorem C09_number_key_order : forall n m, n < 2^64 -> m < 2^64 ->
  blex (prefix_key n) (prefix_key m) = (n ?= m).
Proof. exact prefix_blex. Qed.
Print Assumptions C09_number_key_order.

Theorem C09_number_key_roundtrip : forall n tail, n < 2^64 ->
  exists p, dec_prefix (prefix_key n ++ tail) = Ok p /\ prefix_height p = n.
Proof.
  intros n tail H. exists (prefix_key n). unfold dec_prefix.
  rewrite app_length, prefix_key_length, firstn_app_exact by apply prefix_key_length.
  split; [reflexivity|now apply prefix_key_val].
Qed.
Print Assumptions C09_number_key_roundtrip.

Theorem C09_number_key_injective : forall n m, n < 2^64 -> m < 2^64 ->
  prefix_key n = prefix_key m -> n = m.
Proof. intros n m Hn Hm E. rewrite <- (prefix_key_val n), <- (prefix_key_val m), E; auto. Qed.
Print Assumptions C09_number_key_injective.

(** Number+hash keys. *)
Theorem C09_hash_key_roundtrip : forall n h, n < 2^64 -> fixed 32 h ->
  length (enc_hash_key (hash_key_new n h)) = 40%nat /\
  exists k, dec_hash_key (enc_hash_key (hash_key_new n h)) = Ok k /\
    hash_key_height k = n /\ hk_hash k = h.
Proof.
  intros n h Hn Hh. split.
  - unfold enc_hash_key, hash_key_new. cbn [hk_prefix hk_hash].
    rewrite app_length, prefix_key_length, firstn_length. destruct Hh as [_ ->]. reflexivity.
  - exists (hash_key_new n h). split; [now apply dec_hash_key_enc|].
    split; [now apply prefix_key_val|reflexivity].
Qed.
Print Assumptions C09_hash_key_roundtrip.

Theorem C09_hash_key_injective : forall n m h g, n < 2^64 -> m < 2^64 -> fixed 32 h -> fixed 32 g ->
  enc_hash_key (hash_key_new n h) = enc_hash_key (hash_key_new m g) -> n = m /\ h = g.
Proof.
  intros n m h g Hn Hm Hh Hg E.
  destruct (C09_hash_key_roundtrip n h Hn Hh) as (_ & k & D & K1 & K2).
  destruct (C09_hash_key_roundtrip m g Hm Hg) as (_ & k' & D' & K1' & K2').
  rewrite E, D' in D. injection D as <-. split; congruence.
Qed.
Print Assumptions C09_hash_key_injective.

Theorem C09_hash_key_order : forall n m h g, n < 2^64 -> m < 2^64 -> n < m ->
  blex (enc_hash_key (hash_key_new n h)) (enc_hash_key (hash_key_new m g)) = Lt.
Proof.
  intros n m h g Hn Hm L. unfold enc_hash_key, hash_key_new. cbn [hk_prefix hk_hash].
  rewrite blex_app by (rewrite ?prefix_key_length; try reflexivity;
    intros E; apply C09_number_key_injective in E; lia).
  rewrite prefix_blex by assumption. exact L.
Qed.
Print Assumptions C09_hash_key_order.

(** Every key of block n and no key of another block starts with n's prefix. *)
Theorem C09_prefix_scan : forall n m h, n < 2^64 -> m < 2^64 ->
  (exists r, enc_hash_key (hash_key_new m h) = prefix_key n ++ r) <-> m = n.
Proof.
  intros n m h Hn Hm. split.
  - intros [r E]. unfold enc_hash_key, hash_key_new in E. cbn [hk_prefix hk_hash] in E.
    apply (f_equal (firstn 8)) in E.
    rewrite !firstn_app_exact in E by apply prefix_key_length.
    now apply C09_number_key_injective.
  - intros ->. eexists. reflexivity.
Qed.
Print Assumptions C09_prefix_scan.

(** Image-cell keys. *)
Theorem C09_cell_key_roundtrip : forall h i, fixed 32 h -> i < 2^32 ->
  dec_cell_key (enc_cell_key (CellKey_ h i)) = Some (CellKey_ h i).
Proof. intros h i Hh Hi. now apply dec_cell_key_enc. Qed.
Print Assumptions C09_cell_key_roundtrip.

Theorem C09_cell_key_injective : forall h i g j, fixed 32 h -> fixed 32 g -> i < 2^32 -> j < 2^32 ->
  enc_cell_key (CellKey_ h i) = enc_cell_key (CellKey_ g j) -> h = g /\ i = j.
Proof.
  intros h i g j Hh Hg Hi Hj E.
  assert (Some (CellKey_ h i) = Some (CellKey_ g j)) as [= -> ->]; [|now split].
  rewrite <- C09_cell_key_roundtrip, <- (C09_cell_key_roundtrip g), E; auto.
Qed.
Print Assumptions C09_cell_key_injective.

Example C09_nonvacuous :
  fixed 32 (repeat 7 32) /\ 255 < 2^64 /\
  blex (enc_hash_key (hash_key_new 255 (repeat 7 32))) (enc_hash_key (hash_key_new 256 (repeat 0 32))) = Lt.
Proof. split; [|split; reflexivity]. split; [|reflexivity]. apply wf_bytesb_spec. reflexivity. Qed.
