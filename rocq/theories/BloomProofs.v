From Verif Require Import Bytes BytesProofs Rlp RlpProofs TxModel TxSpec BlockModel BlockProofs BloomModel.

(** Specification: the bloom is a 2048-bit big-endian number; an item sets the three bits whose
    numbers are the low 11 bits of the first three byte pairs of its digest (Ethereum yellow paper, M3:2048). *)
Definition m3_bits (h : bytes) : list N :=
  map (fun i => (256 * nth i h 0 + nth (S i) h 0) mod 2048) [0%nat; 2%nat; 4%nat].
Definition bloom_has (bloom : bytes) (b : N) : Prop := N.testbit (be_val bloom) b = true.
Definition bloom_tests_positive (digest : bytes -> bytes) (bloom : bytes) (x : bytes) : Prop :=
  forall b, In b (m3_bits (digest x)) -> bloom_has bloom b.
Definition log_entries (l : log) : list bytes := lg_address l :: lg_topics l.

Lemma bloom_bit_spec h i :
  bloom_bit h i = (256 * nth i h 0 + nth (S i) h 0) mod 2048.
Proof.
  unfold bloom_bit. change 0x7FF with (N.ones 11). rewrite N.land_ones, N.shiftl_mul_pow2.
  change (2^11) with 2048. change (2^8) with 256. f_equal.
  replace (i + 1)%nat with (S i) by lia. lia.
Qed.

Lemma or_at_length b i m : length (or_at b i m) = length b.
Proof. revert i. induction b as [|x b IH]; intros [|i]; cbn; auto. Qed.

Lemma lor_byte a b : a < 256 -> b < 256 -> N.lor a b < 256.
Proof.
  intros Ha Hb. destruct (N.eq_dec (N.lor a b) 0) as [->|E]; [lia|].
  apply (N.log2_lt_pow2 _ 8); [lia|]. rewrite N.log2_lor.
  assert (forall x, x < 256 -> N.log2 x < 8) as H.
  { intros x Hx. destruct (N.eq_dec x 0) as [->|]; [reflexivity|]. apply N.log2_lt_pow2; [lia|exact Hx]. }
  apply N.max_lub_lt; auto.
Qed.

Lemma or_at_wf b i m : wf_bytes b -> m < 256 -> wf_bytes (or_at b i m).
Proof.
  intros W Hm. revert i. induction W as [|x b Hx W IH]; intros [|i]; cbn; try constructor; auto.
  - now apply lor_byte.
  - apply IH.
Qed.

(** Bits of a digit string, least significant first. *)
Lemma le_val_testbit b k : wf_bytes b ->
  N.testbit (le_val b) k = N.testbit (nth (N.to_nat (k / 8)) b 0) (k mod 8).
Proof.
  intros W. revert k. induction W as [|x b Hx W IH]; intros k.
  - cbn [le_val]. rewrite N.bits_0. destruct (N.to_nat (k / 8)); cbn [nth]; now rewrite N.bits_0.
  - cbn [le_val]. unfold is_byte in Hx.
    destruct (N.lt_ge_cases k 8) as [L|G].
    + rewrite <- (N.mod_pow2_bits_low _ 8) by assumption. change (2^8) with 256.
      replace ((x + 256 * le_val b) mod 256) with x by lia.
      rewrite N.div_small, N.mod_small by assumption. reflexivity.
    + replace k with ((k - 8) + 8) at 1 by lia. rewrite <- N.div_pow2_bits.
      change (2^8) with 256. replace ((x + 256 * le_val b) / 256) with (le_val b) by lia.
      rewrite IH. replace (N.to_nat (k / 8)) with (S (N.to_nat ((k - 8) / 8))) by lia. cbn [nth].
      f_equal. lia.
Qed.

Lemma be_val_testbit b k : wf_bytes b -> k < 8 * len b ->
  N.testbit (be_val b) k = N.testbit (nth (length b - 1 - N.to_nat (k / 8)) b 0) (k mod 8).
Proof.
  intros W L. unfold be_val. rewrite le_val_testbit by now apply wf_bytes_rev.
  unfold len in L. rewrite rev_nth by lia. do 2 f_equal. lia.
Qed.

Lemma nth_or_at b i m j :
  nth j (or_at b i m) 0 = if (j =? i)%nat && (j <? length b)%nat then N.lor (nth j b 0) m else nth j b 0.
Proof.
  revert i j. induction b as [|x b IH]; intros i j.
  - cbn [length or_at]. rewrite (proj2 (Nat.ltb_ge j 0)) by lia. rewrite andb_false_r. now destruct j.
  - destruct i as [|i], j as [|j]; cbn [or_at nth length]; try reflexivity.
    rewrite IH. reflexivity.
Qed.

Lemma set_bit_length b k : length (set_bit b k) = length b.
Proof. apply or_at_length. Qed.
Lemma shiftl_byte k : N.shiftl 1 (k mod 8) < 256.
Proof.
  rewrite N.shiftl_1_l. change 256 with (2^8). apply N.pow_lt_mono_r; [lia|]. apply N.mod_lt. lia.
Qed.
Lemma set_bit_wf b k : wf_bytes b -> wf_bytes (set_bit b k).
Proof. intros. apply or_at_wf; [assumption|apply shiftl_byte]. Qed.

Definition bloom_ok (b : bytes) : Prop := fixed 256 b.

Lemma set_bit_spec b k j : bloom_ok b -> k < 2048 -> j < 2048 ->
  N.testbit (be_val (set_bit b k)) j = N.testbit (be_val b) j || (j =? k).
Proof.
  intros [W L] Hk Hj.
  assert (len b = 256) as HL by (unfold len; now rewrite L).
  rewrite be_val_testbit; [|now apply set_bit_wf|unfold len; rewrite set_bit_length; fold (len b); lia].
  rewrite be_val_testbit by (auto; lia).
  rewrite set_bit_length, L. unfold set_bit, BLOOM_BYTE_LENGTH. rewrite nth_or_at, L.
  destruct (_ =? _)%nat eqn:E; cbn [andb].
  - rewrite (proj2 (Nat.ltb_lt _ _)) by lia.
    rewrite N.lor_spec. f_equal. rewrite N.shiftl_1_l.
    apply Nat.eqb_eq in E. assert (j / 8 = k / 8) as D by lia.
    destruct (j =? k) eqn:F.
    + apply N.eqb_eq in F. subst. apply N.pow2_bits_true.
    + apply N.pow2_bits_false. apply N.eqb_neq in F. intros M. apply F.
      pose proof (N.div_mod j 8). pose proof (N.div_mod k 8). lia.
  - destruct (j =? k) eqn:F; [|now rewrite orb_false_r].
    apply N.eqb_eq in F. subst. rewrite Nat.eqb_refl in E. discriminate.
Qed.
Lemma set_bit_ok b k : bloom_ok b -> bloom_ok (set_bit b k).
Proof. intros [W L]. split; [now apply set_bit_wf|now rewrite set_bit_length]. Qed.

Lemma bloom_zero_ok : bloom_ok bloom_zero.
Proof. split; [|reflexivity]. apply wf_bytesb_spec. vm_compute. reflexivity. Qed.
Lemma bloom_zero_bits j : N.testbit (be_val bloom_zero) j = false.
Proof. replace (be_val bloom_zero) with 0 by (vm_compute; reflexivity). apply N.bits_0. Qed.

Lemma nth_error_ext {A} (l m : list A) : (forall k, nth_error l k = nth_error m k) -> l = m.
Proof.
  revert m. induction l as [|x l IH]; intros [|y m] H; try reflexivity.
  - specialize (H 0%nat). discriminate.
  - specialize (H 0%nat). discriminate.
  - f_equal; [specialize (H 0%nat); now injection H|]. apply IH. intros k. exact (H (S k)).
Qed.

Section B.
Variable digest : bytes -> bytes.
Lemma m3_ok b x : bloom_ok b -> bloom_ok (m3_2048 digest b x).
Proof. intros. unfold m3_2048. cbn [fold_left]. auto using set_bit_ok. Qed.

Lemma m3_bits_bound h b : In b (m3_bits h) -> b < 2048.
Proof. unfold m3_bits. intros H. apply in_map_iff in H as (i & <- & _). apply N.mod_lt. lia. Qed.

Lemma m3_spec b x j : bloom_ok b -> j < 2048 ->
  bloom_has (m3_2048 digest b x) j <-> bloom_has b j \/ In j (m3_bits (digest x)).
Proof.
  intros O J. unfold bloom_has, m3_2048. cbn [fold_left].
  assert (forall i, bloom_bit (digest x) i < 2048) as B.
  { intros i. rewrite bloom_bit_spec. apply N.mod_lt. lia. }
  rewrite !set_bit_spec by auto using set_bit_ok.
  rewrite !orb_true_iff, !N.eqb_eq, !bloom_bit_spec.
  unfold m3_bits. cbn [map In]. intuition congruence.
Qed.

Lemma fold_m3_ok l b : bloom_ok b -> bloom_ok (fold_left (m3_2048 digest) l b).
Proof. revert b. induction l as [|x l IH]; intros b O; cbn [fold_left]; auto. apply IH. now apply m3_ok. Qed.
Lemma fold_m3_spec l b j : bloom_ok b -> j < 2048 ->
  bloom_has (fold_left (m3_2048 digest) l b) j <->
  bloom_has b j \/ exists x, In x l /\ In j (m3_bits (digest x)).
Proof.
  revert b. induction l as [|x l IH]; intros b O J; cbn [fold_left].
  - split; [auto|]. intros [H|(x & [] & _)]. exact H.
  - rewrite IH by (auto; now apply m3_ok). rewrite m3_spec by assumption. split.
    + intros [[H|H]|(y & Hy & H)]; [auto|right; exists x; cbn; auto|right; exists y; cbn; auto].
    + intros [H|(y & [->|Hy] & H)]; [auto|auto|right; exists y; auto].
Qed.

Lemma add_log_as_fold b l : add_log digest b l = fold_left (m3_2048 digest) (log_entries l) b.
Proof. reflexivity. Qed.
Lemma fold_add_log logs b :
  fold_left (add_log digest) logs b = fold_left (m3_2048 digest) (flat_map log_entries logs) b.
Proof.
  revert b. induction logs as [|l logs IH]; intros b; cbn [fold_left flat_map]; [reflexivity|].
  rewrite fold_left_app. rewrite <- IH. reflexivity.
Qed.

Lemma logs_bloom_spec logs j : j < 2048 ->
  bloom_has (logs_bloom digest logs) j <->
  exists l x, In l logs /\ In x (log_entries l) /\ In j (m3_bits (digest x)).
Proof.
  intros J. unfold logs_bloom. rewrite fold_add_log, fold_m3_spec by (auto using bloom_zero_ok).
  split.
  - intros [H|(x & Hx & H)]; [unfold bloom_has in H; rewrite bloom_zero_bits in H; discriminate|].
    apply in_flat_map in Hx as (l & Hl & Hx). eauto.
  - intros (l & x & Hl & Hx & H). right. exists x. split; [|exact H]. apply in_flat_map. eauto.
Qed.
Lemma logs_bloom_ok logs : bloom_ok (logs_bloom digest logs).
Proof. unfold logs_bloom. rewrite fold_add_log. apply fold_m3_ok, bloom_zero_ok. Qed.

(* ---- receipts ---- *)
Definition sum_logs (rs : list tx_resp) : N := N.of_nat (length (flat_map x_logs rs)).

Lemma gen_receipts_spec b txs rs idx li out :
  gen_receipts digest b idx li txs rs = Ok out ->
  length out = Nat.min (length txs) (length rs) /\
  forall k h s r, nth_error txs k = Some (h, s) -> nth_error rs k = Some r ->
  exists rc, nth_error out k = Some rc /\ r_tx_hash rc = h /\ r_sender rc = s /\
    r_logs rc = x_logs r /\ r_logs_bloom rc = logs_bloom digest (x_logs r) /\
    r_used_gas rc = x_gas_used r /\ r_ret rc = x_exit r /\ r_code_address rc = x_code_address r /\
    r_removed rc = x_removed r /\
    r_block_hash rc = block_hash digest b /\ r_block_number rc = h_number (b_header b) /\
    r_state_root rc = h_state_root (b_header b) /\
    r_tx_index rc = (idx + N.of_nat k) mod 2^32 /\
    (Forall (fun r => N.of_nat (length (x_logs r)) < 2^32) rs ->
     r_log_index rc = li + sum_logs (firstn k rs)).
Proof.
  revert rs idx li out. induction txs as [|[h0 s0] txs IH]; intros rs idx li out; cbn [gen_receipts].
  { intros [= <-]. split; [reflexivity|]. intros [|k]; discriminate. }
  destruct rs as [|r0 rs].
  { intros [= <-]. split; [reflexivity|]. intros [|k]; discriminate. }
  set (next := li + N.of_nat (length (x_logs r0)) mod 2^32).
  destruct (next <? 2^32) eqn:E; [|discriminate].
  destruct (gen_receipts _ _ _ _ txs rs) as [l| |] eqn:G; try discriminate. intros [= <-].
  apply IH in G as [GL G]. split; [cbn [length]; lia|].
  intros [|k] h s r; cbn [nth_error].
  - intros [= <- <-] [= <-]. eexists. split; [reflexivity|]. cbn. repeat split.
    + f_equal. lia.
    + intros _. unfold sum_logs. cbn. lia.
  - intros HT HR. destruct (G k h s r HT HR) as (rc & N1 & N2). exists rc. split; [exact N1|].
    destruct N2 as (?&?&?&?&?&?&?&?&?&?&?&HI&HL). repeat split; auto.
    + rewrite HI. f_equal. lia.
    + intros F. inversion F as [|? ? F0 F1]; subst. rewrite HL by assumption.
      unfold next, sum_logs. cbn [firstn flat_map]. rewrite app_length, N.mod_small by assumption. lia.
Qed.
End B.

(* ---------------- keys ---------------- *)
(** Lexicographic order of byte strings: the order rocksdb iterates in. *)
Fixpoint blex (a b : bytes) : comparison :=
  match a, b with
  | [], [] => Eq | [], _ => Lt | _, [] => Gt
  | x :: a', y :: b' => match x ?= y with Eq => blex a' b' | c => c end
  end.

Lemma blex_be_val a b : length a = length b -> wf_bytes a -> wf_bytes b ->
  blex a b = (be_val a ?= be_val b).
Proof.
  revert b. induction a as [|x a IH]; intros [|y b] L Wa Wb; try discriminate; [reflexivity|].
  cbn [blex]. rewrite !be_val_cons. injection L as L. apply Forall_cons_iff in Wa as [_ Wa], Wb as [_ Wb].
  assert (Ba := be_val_bound a Wa). assert (Bb := be_val_bound b Wb).
  rewrite L in Ba |- *. set (P := 256 ^ N.of_nat (length b)) in *.
  destruct (x ?= y) eqn:C.
  - apply N.compare_eq in C. subst y. rewrite IH by assumption. symmetry.
    destruct (be_val a ?= be_val b) eqn:D.
    + apply N.compare_eq in D. apply N.compare_eq_iff. lia.
    + change (be_val a < be_val b) in D. change (x * P + be_val a < x * P + be_val b). lia.
    + apply N.compare_gt_iff in D. apply N.compare_gt_iff. lia.
  - change (x < y) in C. symmetry. change (x * P + be_val a < y * P + be_val b).
    assert ((x + 1) * P <= y * P) by (apply N.mul_le_mono_r; lia). lia.
  - apply N.compare_gt_iff in C. symmetry. apply N.compare_gt_iff.
    assert ((y + 1) * P <= x * P) by (apply N.mul_le_mono_r; lia). lia.
Qed.

Lemma blex_app a b c d : length a = length b -> a <> b -> blex (a ++ c) (b ++ d) = blex a b.
Proof.
  revert b. induction a as [|x a IH]; intros [|y b] L N; try discriminate; [congruence|].
  cbn [app blex]. destruct (x ?= y) eqn:C; auto. apply N.compare_eq in C. subst. apply IH; [now injection L|congruence].
Qed.

Lemma prefix_key_length n : length (prefix_key n) = 8%nat.
Proof. apply be_fixed_length. Qed.
Lemma prefix_key_wf n : wf_bytes (prefix_key n).
Proof. apply be_fixed_wf. Qed.
Lemma prefix_key_val n : n < 2^64 -> be_val (prefix_key n) = n.
Proof. intros. now apply be_val_fixed. Qed.
Lemma prefix_blex n m : n < 2^64 -> m < 2^64 -> blex (prefix_key n) (prefix_key m) = (n ?= m).
Proof.
  intros. rewrite blex_be_val by (rewrite ?prefix_key_length; auto using prefix_key_wf).
  now rewrite !prefix_key_val.
Qed.
Lemma dec_hash_key_enc n h : fixed 32 h ->
  dec_hash_key (enc_hash_key (hash_key_new n h)) = Ok (hash_key_new n h).
Proof.
  intros [_ L]. unfold dec_hash_key, enc_hash_key, hash_key_new, dec_prefix. cbn [hk_prefix hk_hash].
  rewrite app_length, prefix_key_length, firstn_length, L. cbn [Nat.ltb Nat.leb Nat.add].
  rewrite firstn_app_exact, skipn_app_exact by apply prefix_key_length.
  rewrite firstn_all2 by lia. now rewrite L.
Qed.
Lemma dec_cell_key_enc k : fixed 32 (ck_tx_hash k) -> ck_index k < 2^32 ->
  dec_cell_key (enc_cell_key k) = Some k.
Proof.
  intros [_ L] H. unfold dec_cell_key, enc_cell_key.
  rewrite app_length, L, le_fixed_length. cbn [Nat.add Nat.eqb].
  rewrite firstn_app_exact, skipn_app_exact by exact L.
  rewrite firstn_all2 by now rewrite le_fixed_length.
  rewrite le_val_fixed by exact H. now destruct k.
Qed.
