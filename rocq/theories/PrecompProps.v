(** C67: prices and outputs of the simpler precompiles, and where they differ from Ethereum.
    C68: the precompile that reads CKB headers. *)
From Verif Require Import Bytes BytesProofs Rlp TxModel CellModel CellProofs CellProps PrecompModel ReadModel ModExpProps.
From stdpp Require Import gmap.
From Coq Require Import Lia.
Local Open Scope N_scope.

(* ---------------------------------------------------------------- *)
(** * C68 *)
Section C68.
  Context {hdr : Type} (hash henc : hdr → bytes) (hdec : bytes → option hdr).
  Hypothesis hdec_enc : ∀ h, hdec (henc h) = Some h.
  Hypothesis henc_ne : ∀ h, henc h ≠ [].
  Variable abi_key : bytes → option bytes.
  Variable abi_out : hdr → bytes.
  (** the ABI decoder yields 32 bytes *)
  Hypothesis abi_key_len : ∀ i k, abi_key i = Some k → length k = 32%nat.

  Notation call := (cell_call (hdr := hdr)).
  Notation exec := (cell_exec hash henc).
  Definition root_after (calls : list (option call)) : trie := foldl (λ t c, (exec t c).1) ∅ calls.

  (** What the light client was told about block [k]: the calls in order, each with the success it reported. *)
  Fixpoint told (k : bytes) (calls : list (option call * bool)) (known : option hdr) : option hdr :=
    match calls with
    | [] => known
    | (Some (CkbUpdate hs), true) :: r =>
        told k r (match last (filter (λ h, hash h = k) hs) with Some h => Some h | None => known end)
    | (Some (CkbRollback ks), true) :: r => told k r (if decide (k ∈ ks) then None else known)
    | _ :: r => told k r known
    end.
  (** the successes reported *)
  Fixpoint reported (t : trie) (calls : list (option call)) : list (option call * bool) :=
    match calls with [] => [] | c :: r => (c, (exec t c).2) :: reported (exec t c).1 r end.

  Notation wf_calls := (Forall (λ c, match c with Some c => wf_call hash c | None => True end)).

  Lemma step_keeps t c k : cells_ok t → (match c with Some c => wf_call hash c | None => True end) → length k = 32%nat →
    ∀ known, t !! k = option_map henc known →
    (exec t c).1 !! k = option_map henc (told k [(c, (exec t c).2)] known) ∧ cells_ok (exec t c).1.
  Proof using henc_ne.
    clear hdec_enc abi_key_len. intros K W L known E.
    assert (other_key k) as OK.
    { intros k' Wk E'. rewrite <- E', enc_cell_key_len in L by done. done. }
    assert (cells_ok (exec t c).1) as K'.
    { destruct c as [[]|]; cbn in *; try done.
      - intros k' b Wk E'. rewrite hdr_update_lookup in E' by done.
        destruct (last (filter (λ h, hash h = enc_cell_key k') hs)) as [h|] eqn:E2; [|by apply (K k')].
        apply last_Some in E2 as [l E2].
        assert (h ∈ filter (λ h, hash h = enc_cell_key k') hs) as I by (rewrite E2; apply elem_of_app; right; by left).
        apply elem_of_list_filter in I as [E3 I]. rewrite Forall_forall in W. pose proof (W h I) as L1.
        cbn in L1. rewrite E3, enc_cell_key_len in L1 by done. done.
      - destruct (hdr_rollback t ks) as [t'|] eqn:E'; [|done]. apply hdr_rollback_iff in E' as [_ ->].
        by apply foldl_delete_ok.
      - destruct (img_update_spec t bs K W) as (t' & -> & K' & _). done.
      - destruct (img_rollback t bs) as [t'|] eqn:E'; [|done]. cbn.
        pose proof (img_rollback_removable _ _ _ K W E') as R.
        destruct (img_rollback_spec t bs K W R) as (t2 & E2 & K2 & _). rewrite E' in E2. by injection E2 as ->. }
    split; [|done]. clear K'.
    destruct c as [[]|]; cbn in *; try done.
    - rewrite hdr_update_lookup by done. destruct (last _); done.
    - destruct (hdr_rollback t ks) as [t'|] eqn:E'; [|done]. apply hdr_rollback_iff in E' as [_ ->]. cbn.
      rewrite foldl_delete_lookup. repeat case_decide; try done; exact E.
    - destruct (img_update_spec t bs K W) as (t' & -> & _ & O & _). cbn. by rewrite O.
    - destruct (img_rollback t bs) as [t'|] eqn:E'; [|done]. cbn.
      pose proof (img_rollback_removable _ _ _ K W E') as R.
      destruct (img_rollback_spec t bs K W R) as (t2 & E2 & _ & O & _). rewrite E' in E2. injection E2 as ->. by rewrite O.
  Qed.

  Lemma told_cons k c r known : told k (c :: r) known = told k r (told k [c] known).
  Proof. destruct c as [[[]|] []]; done. Qed.

  Lemma stored_told calls k : wf_calls calls → length k = 32%nat →
    root_after calls !! k = option_map henc (told k (reported ∅ calls) None).
  Proof using henc_ne.
    clear hdec_enc abi_key_len. intros W L. unfold root_after.
    assert (cells_ok ∅) as K by (intros k' b _ E; by rewrite lookup_empty in E).
    assert ((∅ : trie) !! k = option_map henc None) as E by done.
    revert K E. generalize (∅ : trie), (None : option hdr).
    induction calls as [|c calls IH]; intros t known K E; [done|].
    apply Forall_cons in W as [Wc W]. cbn [foldl reported]. rewrite told_cons.
    destruct (step_keeps t c k K Wc L known E) as [E' K']. by apply IH.
  Qed.

  (** Whatever calls the two contracts received before, the precompile answers a query with the header last given for that block hash and not
      rolled back since, at 42000 gas; it fails when there is none, and never panics. *)
  Theorem C68_get_header calls input limit : wf_calls calls →
    get_header_exec hdec abi_key abi_out (root_after calls) input limit =
      if over limit 42000 then POutOfGas
      else match abi_key input with
           | Some k => match told k (reported ∅ calls) None with Some h => POk (abi_out h) 42000 | None => PFail end
           | None => PFail
           end.
  Proof using hdec_enc henc_ne abi_key_len.
    intros W. unfold get_header_exec. destruct (over limit 42000); [done|].
    destruct (abi_key input) as [k|] eqn:E; [|done].
    rewrite stored_told by eauto. destruct (told k _ None); cbn; [|done]. by rewrite hdec_enc.
  Qed.
End C68.

Section C68_cells.
  Context {hdr : Type} (hash henc : hdr → bytes).
  Hypothesis henc_ne : ∀ h, henc h ≠ [].
  Variable abi_outpoint : bytes → option cell_key.
  Variable abi_cell : cell → bytes.

  (** The cell reader would work: on every reachable store a query for an out point succeeds with its cell exactly when something is stored
      under it, and nothing panics. *)
  Theorem C68_get_cell calls input limit k : Forall (λ c, match c with Some c => wf_call hash c | None => True end) calls →
    abi_outpoint input = Some k → wf_key k → over limit 42000 = false →
    let root := root_after hash henc calls in
    (∃ c, get_cell root k = Some (Some c) ∧ root !! enc_cell_key k = Some (enc_cell c) ∧
          get_cell_exec abi_outpoint abi_cell root input limit = POk (abi_cell c) 42000) ∨
    (root !! enc_cell_key k = None ∧ get_cell_exec abi_outpoint abi_cell root input limit = PFail).
  Proof using henc_ne.
    intros W E Wk G root. unfold get_cell_exec. rewrite G, E.
    pose proof (C29_reachable hash henc henc_ne calls W) as K. fold (root_after hash henc calls) in K. fold root in K.
    destruct (get_cell_ok _ k K Wk) as [[-> ->]|(c & _ & E1 & E2)]; [by right|left].
    exists c. by rewrite E1.
  Qed.
End C68_cells.

(** Every other contract is registered. *)
Theorem C68_registered a : a ∈ precompile_set ↔ a ∈ precompiles_defined ∧ a ≠ axon_address 3.
Proof.
  split.
  - intros I. assert (A : Forall (λ a, a ∈ precompiles_defined ∧ a ≠ axon_address 3) precompile_set) by by apply (bool_decide_unpack _); vm_compute.
    rewrite Forall_forall in A. by apply A.
  - intros [I N]. assert (A : Forall (λ a, a ≠ axon_address 3 → a ∈ precompile_set) precompiles_defined) by by apply (bool_decide_unpack _); vm_compute.
    rewrite Forall_forall in A. by apply A.
Qed.
(** … but no address leads to it: 0x0103 is not in the set that is built. *)
Theorem C68_get_cell_refuted : ∃ a, a ∈ precompiles_defined ∧ a ∉ precompile_set ∧ a = axon_address 3.
Proof.
  exists (axon_address 3). split; [by apply (bool_decide_unpack _); vm_compute|]. split; [|done].
  by apply (bool_decide_unpack _); vm_compute.
Qed.

(* ---------------------------------------------------------------- *)
(** * C67 *)

(** number of 32-byte words needed for [n] bytes, said without division *)
Definition words_for (n w : N) : Prop := n <= 32 * w ∧ (w = 0 ∨ 32 * (w - 1) < n).

Lemma word_gas_spec min per i : ∃ w, words_for (len i) w ∧ word_gas min per i = min + per * w.
Proof.
  exists ((len i + 31) / 32). split; [|unfold word_gas; lia].
  pose proof (N.div_mod (len i + 31) 32). pose proof (N.mod_lt (len i + 31) 32).
  unfold words_for. lia.
Qed.

Lemma hash_exec_spec min per f i limit : ∃ w, words_for (len i) w ∧
  hash_exec min per f i limit = if over limit (min + per * w) then POutOfGas else POk (f i) (min + per * w).
Proof.
  destruct (word_gas_spec min per i) as (w & W & E). exists w. split; [done|]. unfold hash_exec. by rewrite E.
Qed.

(** The four functions of one byte string: yellow-paper prices, output of the stated shape, no other outcome. *)
Theorem C67_hashes (sha256 ripemd blake2b : bytes → bytes) i limit : ∃ w, words_for (len i) w ∧
  let answer gas out := if over limit gas then POutOfGas else POk out gas in
  sha256_exec sha256 i limit = answer (60 + 12 * w) (sha256 i) ∧
  ripemd_exec ripemd i limit = answer (600 + 120 * w) (repeat 0 12 ++ ripemd i) ∧
  identity_exec i limit = answer (15 + 3 * w) i ∧
  ckb_blake2b_exec blake2b i limit = answer (60 + 12 * w) (blake2b i).
Proof.
  destruct (word_gas_spec 60 12 i) as (w & W & E). exists w. split; [done|].
  assert (∀ min per, word_gas min per i = min + per * w) as G.
  { intros. unfold word_gas in *. lia. }
  unfold sha256_exec, ripemd_exec, identity_exec, ckb_blake2b_exec, hash_exec. rewrite !G. done.
Qed.

(** ** Signature recovery *)
Section EcRecover.
  Variable keccak : bytes → bytes.
  Variable recover : bytes → bytes → option bytes.
  (** i-th byte of the input followed by zeros; [n] bytes at [off] *)
  Definition bytes_at (i : bytes) (off n : nat) : bytes := map (λ k, nth (off + k) i 0) (seq 0 n).
  (** the yellow paper: hash, v, r, s at 0, 32, 64, 96; v is 27 or 28; an invalid signature gives an empty output *)
  Definition eth_ecrecover (i : bytes) (limit : option N) : pres :=
    if over limit 3000 then POutOfGas
    else
      let v := be_val (bytes_at i 32 32) in
      let ans := if (v =? 27) || (v =? 28) then recover (bytes_at i 0 32) (bytes_at i 64 64 ++ [v - 27]) else None in
      match ans with
      | Some p => POk (repeat 0 12 ++ skipn 12 (keccak p)) 3000
      | None => POk [] 3000
      end.

  Lemma padded_nth (i : bytes) k : (k < 128)%nat → nth k (firstn 128 i ++ repeat 0 (128 - length i)) 0 = nth k i 0.
  Proof.
    intros H. destruct (Nat.lt_ge_cases k (length i)) as [L|L].
    - rewrite app_nth1 by (rewrite firstn_length; lia). rewrite <- (firstn_skipn 128 i) at 2.
      rewrite app_nth1; [done|]. rewrite firstn_length. lia.
    - rewrite app_nth2 by (rewrite firstn_length; lia). rewrite nth_repeat, nth_overflow; [done|lia].
  Qed.
  Lemma padded_slice i off n : (off + n <= 128)%nat →
    slice (firstn 128 i ++ repeat 0 (128 - length i)) off n = bytes_at i off n.
  Proof.
    intros H. unfold slice.
    assert (∀ (p : bytes), (off + n <= length p)%nat → firstn n (skipn off p) = map (λ k, nth (off + k) p 0) (seq 0 n)) as G.
    { intros p Hp. rewrite window. replace (n - (length p - off))%nat with 0%nat by lia. by rewrite app_nil_r. }
    rewrite G by (rewrite app_length, firstn_length, repeat_length; lia).
    apply map_ext_in. intros k Hk. apply in_seq in Hk. apply padded_nth. lia.
  Qed.

  Lemma be_val_zero (l : bytes) : be_val l = 0 ↔ forallb (N.eqb 0) l = true.
  Proof.
    induction l as [|x l IH]; [done|]. rewrite be_val_cons. cbn [forallb]. rewrite andb_true_iff, <- IH, N.eqb_eq.
    assert (256 ^ N.of_nat (length l) ≠ 0) by by apply N.pow_nonzero.
    split; [|intros [<- ->]; lia]. intros H0. nia.
  Qed.

  Lemma v_spec i : wf_bytes i →
    let v := nth 63 i 0 in
    let n := be_val (bytes_at i 32 32) in
    (((v =? 27) || (v =? 28)) && forallb (N.eqb 0) (bytes_at i 32 31)) = ((n =? 27) || (n =? 28)) ∧
    (((n =? 27) || (n =? 28)) = true → n = v).
  Proof.
    intros W v n. assert (bytes_at i 32 32 = bytes_at i 32 31 ++ [v]) as E by reflexivity.
    assert (n = be_val (bytes_at i 32 31) * 256 + v) as En.
    { unfold n. rewrite E, be_val_app. cbn [length]. rewrite N.pow_1_r. f_equal.
      rewrite be_val_cons. cbn. lia. }
    assert (v < 256) as Hv.
    { unfold v. destruct (Nat.lt_ge_cases 63 (length i)) as [L|L].
      - unfold wf_bytes in W. rewrite List.Forall_forall in W. by apply W, nth_In.
      - by rewrite nth_overflow. }
    clearbody v n. clear E. pose proof (be_val_zero (bytes_at i 32 31)) as Z.
    destruct (forallb (N.eqb 0) (bytes_at i 32 31)).
    - rewrite (proj2 Z eq_refl) in En. rewrite andb_true_r. subst n. done.
    - rewrite andb_false_r.
      assert (be_val (bytes_at i 32 31) ≠ 0) by (intros X; apply Z in X; done).
      assert (n ≠ 27 ∧ n ≠ 28) as [N1 N2] by lia.
      apply N.eqb_neq in N1, N2. by rewrite N1, N2.
  Qed.

  (** Where Ethereum recovers an address, so does the node, at the same price; where it answers with nothing, the node fails instead. *)
  Theorem C67_ecrecover_partial i limit : wf_bytes i →
    ecrecover_exec keccak recover i limit = match eth_ecrecover i limit with POk [] _ => PFail | r => r end.
  Proof.
    intros W. unfold ecrecover_exec, eth_ecrecover. destruct (over limit 3000); [done|]. cbv zeta.
    rewrite !padded_slice, padded_nth by lia.
    destruct (v_spec i W) as [E V]. cbv zeta in E, V. rewrite E.
    destruct ((be_val (bytes_at i 32 32) =? 27) || (be_val (bytes_at i 32 32) =? 28)); [|done].
    rewrite V by done. by destruct (recover _ _).
  Qed.
  (** The difference is there for an empty input. *)
  Theorem C67_ecrecover_refuted : ∃ i limit, wf_bytes i ∧
    eth_ecrecover i limit = POk [] 3000 ∧ ecrecover_exec keccak recover i limit = PFail.
  Proof. exists [], (Some 3000). split; [constructor|]. split; reflexivity. Qed.
End EcRecover.

(** ** Curve operations *)
Section EcCurve.
  Variable g1_add : point → point → point.
  Variable g1_mul : point → N → point.
  Variable pair : Type.
  Variable read_pair : bytes → option pair.
  Variable pairing_one : list pair → bool.

  (** EIP-196: the input is followed by zeros; coordinates are below the field modulus and on the curve, (0,0) being the neutral element *)
  Definition eip_point (i : bytes) (off : nat) : option point :=
    let x := be_val (bytes_at i off 32) in
    let y := be_val (bytes_at i (off + 32) 32) in
    if (FQ <=? x) || (FQ <=? y) then None
    else if (x =? 0) && (y =? 0) then Some None
    else if (y * y) mod FQ =? (x ^ 3 + 3) mod FQ then Some (Some (x, y)) else None.
  Definition eip_word (n : N) : bytes := be_fixed 32 n.
  Definition eip_write (p : point) : bytes := match p with Some (x, y) => eip_word x ++ eip_word y | None => eip_word 0 ++ eip_word 0 end.
  Definition eip_add (i : bytes) (limit : option N) : pres :=
    if over limit 150 then POutOfGas
    else match eip_point i 0, eip_point i 64 with Some p, Some q => POk (eip_write (g1_add p q)) 150 | _, _ => PFail end.
  Definition eip_mul (i : bytes) (limit : option N) : pres :=
    if over limit 6000 then POutOfGas
    else match eip_point i 0 with Some p => POk (eip_write (g1_mul p (be_val (bytes_at i 64 32)))) 6000 | None => PFail end.

  Lemma slice_at i off n : (off + n <= length i)%nat → slice i off n = bytes_at i off n.
  Proof.
    intros H. unfold slice, bytes_at. rewrite window.
    replace (n - (length i - off))%nat with 0%nat by lia. by rewrite app_nil_r.
  Qed.
  Lemma read_point_ok i off : (off + 64 <= length i)%nat → read_point i off = eip_point i off.
  Proof.
    intros H. unfold read_point, eip_point. cbv zeta.
    replace (length i <? off + 64)%nat with false by (symmetry; apply Nat.ltb_ge; lia).
    unfold read_fq. rewrite !slice_at by lia.
    set (x := be_val (bytes_at i off 32)). set (y := be_val (bytes_at i (off + 32) 32)).
    rewrite (N.leb_antisym x), (N.leb_antisym y).
    destruct (x <? FQ); cbn [obind negb orb]; [|done]. destruct (y <? FQ); cbn [obind negb]; [|done].
    unfold on_curve. replace (x * x * x) with (x ^ 3) by (change 3 with (1 + 1 + 1); rewrite !N.pow_add_r, N.pow_1_r; done).
    done.
  Qed.
  Lemma write_point_ok p : write_point p = eip_write p.
  Proof. destruct p as [[]|]; reflexivity. Qed.

  Theorem C67_ec_add_partial i limit : (128 <= length i)%nat → ec_add_exec g1_add i limit = eip_add i limit.
  Proof.
    intros H. unfold ec_add_exec, eip_add. rewrite !read_point_ok by lia.
    destruct (over limit 150); [done|]. destruct (eip_point i 0), (eip_point i 64); try done; by rewrite write_point_ok.
  Qed.
  Theorem C67_ec_mul_partial i limit : (96 <= length i)%nat → ec_mul_exec g1_mul (λ _, true) i limit = eip_mul i limit.
  Proof.
    intros H. unfold ec_mul_exec, eip_mul. rewrite read_point_ok by lia.
    destruct (over limit 6000); [done|]. destruct (eip_point i 0); [|done].
    replace (length i <? 96)%nat with false by (symmetry; apply Nat.ltb_ge; lia).
    rewrite slice_at by lia. by rewrite ?write_point_ok.
  Qed.
  (** shorter inputs are refused although EIP-196 extends them: the sum of nothing is the neutral element there *)
  Theorem C67_ec_short_refuted : ∃ i limit, wf_bytes i ∧
    eip_add i limit = POk (eip_write (g1_add None None)) 150 ∧ ec_add_exec g1_add i limit = PFail.
  Proof. exists [], (Some 150). split; [constructor|]. split; vm_compute; reflexivity. Qed.

  (** … all of them: nothing that is too short is computed *)
  Theorem C67_ec_short i limit : ((length i < 128)%nat → ∀ out gas, ec_add_exec g1_add i limit ≠ POk out gas) ∧
    ((length i < 96)%nat → ∀ ok out gas, ec_mul_exec g1_mul ok i limit ≠ POk out gas).
  Proof.
    split; intros L.
    - intros out gas. unfold ec_add_exec. destruct (over limit 150); [done|]. unfold read_point at 2. cbv zeta.
      replace (length i <? 64 + 64)%nat with true by (symmetry; apply Nat.ltb_lt; lia). by destruct (read_point i 0).
    - intros ok out gas. unfold ec_mul_exec. destruct (over limit 6000); [done|]. destruct (read_point i 0); [|done].
      by replace (length i <? 96)%nat with true by (symmetry; apply Nat.ltb_lt; lia).
  Qed.

  (** EIP-197: a multiple of 192 bytes *)
  Definition eip_pairing (i : bytes) (limit : option N) : pres :=
    let k := (length i / 192)%nat in
    if over limit (45000 + 34000 * N.of_nat k) then POutOfGas
    else if negb (length i mod 192 =? 0)%nat then PFail
    else match map_opt read_pair (map (λ j, bytes_at i (192 * j) 192) (seq 0 k)) with
         | Some ps => POk (eip_word (if pairing_one ps then 1 else 0)) (45000 + 34000 * N.of_nat k)
         | None => PFail
         end.

  Lemma read_pairs_ok n : ∀ (i : bytes), (192 * n <= length i)%nat →
    read_pairs pair read_pair n i = map_opt read_pair (map (λ j, bytes_at i (192 * j) 192) (seq 0 n)).
  Proof.
    induction n as [|n IH]; intros i H; [done|].
    cbn [read_pairs seq map map_opt]. rewrite IH by (rewrite skipn_length; lia).
    rewrite <- (slice_at i (192 * 0) 192) by lia. rewrite Nat.mul_0_r.
    change (slice i 0 192) with (firstn 192 i).
    rewrite <- seq_shift, map_map.
    replace (map (λ x, bytes_at i (192 * S x) 192) (seq 0 n)) with (map (λ j, bytes_at (skipn 192 i) (192 * j) 192) (seq 0 n)).
    2:{ apply map_ext_in. intros j Hj. apply in_seq in Hj. rewrite <- !slice_at by (rewrite ?skipn_length; lia).
        unfold slice. f_equal. rewrite drop_drop. f_equal. lia. }
    destruct (read_pair (firstn 192 i)); cbn; [|done].
    destruct (map_opt _ _); done.
  Qed.

  Theorem C67_pairing_partial i limit : (length i mod 192 = 0)%nat → (i = [] → pairing_one [] = true ∧ over limit 45000 = false) →
    ec_pairing_exec pair read_pair pairing_one i limit = eip_pairing i limit.
  Proof.
    intros M E. destruct i as [|x i].
    - destruct (E eq_refl) as [P G]. unfold ec_pairing_exec, eip_pairing. cbv zeta. change (length (@nil N) / 192)%nat with 0%nat.
      change (45000 + 34000 * N.of_nat 0) with 45000. rewrite G. cbn [seq map map_opt]. rewrite P. reflexivity.
    - unfold ec_pairing_exec, eip_pairing. set (l := x :: i) in *. clearbody l. cbv zeta.
      rewrite M. cbn [Nat.eqb negb].
      replace (N.of_nat (length l / 192) * 34000 + 45000) with (45000 + 34000 * N.of_nat (length l / 192)) by lia.
      rewrite read_pairs_ok; [done|]. apply Nat.mul_div_le. done.
  Qed.
  (** a remainder is dropped, where EIP-197 refuses it *)
  Theorem C67_pairing_refuted : pairing_one [] = true → ∃ i limit, wf_bytes i ∧
    eip_pairing i limit = PFail ∧ ec_pairing_exec pair read_pair pairing_one i limit = POk (eip_word 1) 45000.
  Proof.
    intros P. exists [1], (Some 45000). split; [by repeat constructor|]. unfold eip_pairing, ec_pairing_exec. cbn.
    split; [done|]. by rewrite P.
  Qed.
End EcCurve.

(** ** The CKB virtual machine *)
Section Vm.
  Variable dep : Type.
  Variable abi : bytes → option (dep * list bytes).
  Variable vm : dep → list bytes → N → option (N * N).
  (** a run stays within its cycle limit (CKB-VM, external) *)
  Hypothesis vm_cycles : ∀ d a max code cycles, vm d a max = Some (code, cycles) → cycles <= max.

  (** With at most the largest gas limit a call may have (30000000), a call does not panic, the machine gets 6000 cycles for each unit of gas,
      and the gas charged is within the limit or the minimum of 500. *)
  Theorem C67_vm input gas : gas <= 30000000 →
    call_vm_exec dep abi vm input (Some gas) ≠ PPanic ∧
    (∀ out g, call_vm_exec dep abi vm input (Some gas) = POk out g →
       ∃ d a code cycles, abi input = Some (d, a) ∧ vm d a (6000 * gas) = Some (code, cycles) ∧ out = [code] ∧
         g <= N.max gas 500 ∧ 500 <= g ∧ cycles < 6000 * (g + 1)).
  Proof using vm_cycles.
    intros G. unfold call_vm_exec, gas_to_cycle, CYCLES_PER_GAS.
    destruct (abi input) as [[d a]|]; [|done].
    replace (gas * 6000 <? 2 ^ 64) with true.
    2:{ symmetry. apply N.ltb_lt. eapply N.le_lt_trans; [apply N.mul_le_mono_r, G|done]. }
    rewrite (N.mul_comm gas). destruct (vm d a (6000 * gas)) as [[code cycles]|] eqn:V; [|done].
    split; [done|]. intros out g [= <- <-]. exists d, a, code, cycles.
    split; [done|]. split; [done|]. split; [done|].
    apply vm_cycles in V. unfold cycle_to_gas, CYCLES_PER_GAS.
    pose proof (N.div_mod cycles 6000). pose proof (N.mod_lt cycles 6000). lia.
  Qed.
  (** beyond 2^64 / 6000 gas the conversion overflows *)
  Theorem C67_vm_overflow_refuted : (∃ i, is_Some (abi i)) → ∃ i gas, gas < 2 ^ 64 ∧ call_vm_exec dep abi vm i (Some gas) = PPanic.
  Proof.
    intros (i & [d a] & E). exists i, (2 ^ 64 - 1). split; [done|]. unfold call_vm_exec. by rewrite E.
  Qed.
End Vm.

(** addresses of the set are distinct: no contract shadows another *)
Theorem C67_addresses : NoDup precompile_set ∧ Forall (λ a, length a = 20%nat) precompile_set.
Proof. split; by apply (bool_decide_unpack _); vm_compute. Qed.

Definition ex_calls : list (option (cell_call (hdr := bytes))) :=
  [Some (CkbUpdate [hdr1; hdr2]); Some (ImgUpdate [blk1]); Some (CkbRollback [hdr2]); Some (CkbRollback [hdr2])].
Example C68_ex :
  map (λ x, match x.2 with true => 1 | false => 0 end) (reported (λ h, h) (λ h, 1 :: h) ∅ ex_calls) = [1; 1; 1; 0] ∧
  get_header_exec (λ b, match b with 1 :: h => Some h | _ => None end) (λ i, Some (firstn 32 i)) (λ h, h)
    (root_after (λ h, h) (λ h, 1 :: h) ex_calls) hdr1 (Some 50000) = POk hdr1 42000 ∧
  get_header_exec (λ b, match b with 1 :: h => Some h | _ => None end) (λ i, Some (firstn 32 i)) (λ h, h)
    (root_after (λ h, h) (λ h, 1 :: h) ex_calls) hdr2 (Some 50000) = PFail.
Proof. split; [|split]; vm_compute; reflexivity. Qed.
Example C68_ex_wf : Forall (λ c, match c with Some c => wf_call (λ h : bytes, h) c | None => True end) ex_calls.
Proof.
  repeat constructor; cbn; try done.
Qed.

Print Assumptions C68_get_header.
Print Assumptions C68_get_cell.
Print Assumptions C68_get_cell_refuted.
Print Assumptions C67_addresses.
Example C67_ex : identity_exec (repeat 7 33) (Some 100) = POk (repeat 7 33) 21 ∧ identity_exec (repeat 7 33) (Some 20) = POutOfGas ∧
  words_for 33 2 ∧ words_for 32 1 ∧ words_for 0 0.
Proof. repeat split; vm_compute; auto; discriminate. Qed.
(** the generator and its negation have the neutral element as sum *)
Example C67_ex_add : eip_point (be_fixed 32 1 ++ be_fixed 32 2) 0 = Some (Some (1, 2)) ∧ eip_point (be_fixed 32 1 ++ be_fixed 32 3) 0 = None
  ∧ eip_point (be_fixed 32 (FQ + 1) ++ be_fixed 32 2) 0 = None.
Proof. repeat split; vm_compute; reflexivity. Qed.
Example C67_ex_recover : ecrecover_exec (λ p, p) (λ h s, Some (repeat 9 32)) (repeat 1 32 ++ be_fixed 32 28 ++ repeat 2 64) (Some 3000)
  = POk (repeat 0 12 ++ repeat 9 20) 3000.
Proof. vm_compute; reflexivity. Qed.
Example C67_ex_vm : call_vm_exec unit (λ _, Some (tt, [])) (λ _ _ max, Some (0, max / 2)) [] (Some 2000) = POk [0] 1000.
Proof. vm_compute; reflexivity. Qed.
Print Assumptions C67_hashes.
Print Assumptions C67_ecrecover_partial.
Print Assumptions C67_ecrecover_refuted.
Print Assumptions C67_ec_add_partial.
Print Assumptions C67_ec_mul_partial.
Print Assumptions C67_ec_short_refuted.
Print Assumptions C67_pairing_partial.
Print Assumptions C67_pairing_refuted.
Print Assumptions C67_vm.
Print Assumptions C67_vm_overflow_refuted.
Print Assumptions C67_ec_short.
Print Assumptions C68_registered.
