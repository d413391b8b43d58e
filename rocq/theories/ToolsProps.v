(** C69: what a block accepted by the light client of axon-tools is known to be, and how far that agrees with the node. *)
From Verif Require Import Bytes BytesProofs Rlp TxModel TxSpec WalModel StorageModel StorageProofs StorageProps BlockModel BlockProofs BlockProps ConsensusModel ConsensusProofs ConsensusProps ConsensusProps2 ToolsModel.
From stdpp Require Import base gmap list sorting.
From Coq Require Import Lia.
Local Open Scope N_scope.

(* ------------------------------------------------------------------------ *)
(** * The two sets of types *)
Definition n_proof (p : t_proof) : proof := Proof_ (tp_number p) (tp_round p) (tp_proposal_hash p) (tp_signature p) (tp_bitmap p).
Definition n_header (h : t_header) : header :=
  Header_ V0 (th_prev_hash h) (th_proposer h) (th_state_root h) (th_transactions_root h) (th_signed_txs_hash h) (th_receipts_root h)
    (th_log_bloom h) (th_timestamp h) (th_number h) (th_gas_used h) (th_gas_limit h) (th_extra_data h) (th_base_fee_per_gas h)
    (n_proof (th_proof h)) (th_call_system_script_count h) (th_chain_id h).
Definition n_block (b : t_block) : BlockModel.block := Block_ (n_header (tb_header b)) (tb_tx_hashes b).
Definition n_proposal (p : t_proposal) : proposal :=
  Proposal_ V0 (tq_prev_hash p) (tq_proposer p) (tq_prev_state_root p) (tq_transactions_root p) (tq_signed_txs_hash p) (tq_timestamp p)
    (tq_number p) (tq_gas_limit p) (tq_extra_data p) (tq_base_fee_per_gas p) (n_proof (tq_proof p)) (tq_chain_id p)
    (tq_call_system_script_count p) (tq_tx_hashes p).
Definition n_validator (v : t_validator) : validator := Validator (tv_pub v) (tv_bls v) (tv_weight v).

(** The copies write the same bytes as the node's types. *)
Theorem C69_same_bytes :
  (forall p, t_enc_proof p = enc_proof (n_proof p)) /\ (forall h, t_enc_header h = enc_hdr (n_header h)) /\
  (forall b, t_enc_block b = enc_block (n_block b)) /\ (forall p, t_enc_proposal p = enc_proposal (n_proposal p)).
Proof. split; [reflexivity|]. split; [reflexivity|]. split; reflexivity. Qed.

(* ------------------------------------------------------------------------ *)
(** * The order of public keys *)
(** Lexicographic order, stated without the function: a proper prefix, or a smaller byte after a common prefix. *)
Definition lex_lt (a b : bytes) : Prop :=
  (exists c, c <> [] /\ b = a ++ c) \/ (exists p x y a' b', a = p ++ x :: a' /\ b = p ++ y :: b' /\ x < y).
Lemma bytes_ltb_lex a b : bytes_ltb a b = true <-> lex_lt a b.
Proof.
  revert b. induction a as [|x a IH]; intros [|y b]; cbn [bytes_ltb].
  - split; [done|]. intros [(c & N & E)|(p & x & y & a' & b' & E & _)]; [by destruct c|by destruct p].
  - split; [|done]. intros _. left. by exists (y :: b).
  - split; [done|]. intros [(c & N & E)|(p & x' & y & a' & b' & _ & E & _)]; [done|by destruct p].
  - destruct (N.ltb_spec x y) as [L|L].
    + split; [|done]. intros _. right. by exists [], x, y, a, b.
    + destruct (N.eqb_spec x y) as [<-|NE].
      * rewrite IH. unfold lex_lt. split; (intros [(c & N & E)|(p & x' & y' & a' & b' & E1 & E2 & E3)]).
        -- left. exists c. by rewrite E.
        -- right. exists (x :: p), x', y', a', b'. by rewrite E1, E2.
        -- left. exists c. cbn in E. injection E as E. done.
        -- destruct p as [|z p]; cbn in E1, E2; [injection E1 as -> ->; injection E2 as -> ->; lia|].
           injection E1 as -> ->. injection E2 as ->. right. by exists p, x', y', a', b'.
      * split; [done|]. intros [(c & N & E)|(p & x' & y' & a' & b' & E1 & E2 & E3)]; [cbn in E; by injection E as -> _|].
        destruct p as [|z p]; cbn in E1, E2; [injection E1 as -> ->; injection E2 as -> ->; lia|].
        injection E1 as -> ->. by injection E2 as ->.
Qed.
Lemma bytes_ltb_irr a : bytes_ltb a a = false.
Proof. induction a as [|x a IH]; [done|]. cbn. by rewrite N.ltb_irrefl, N.eqb_refl. Qed.
Lemma bytes_ltb_trans a b c : bytes_ltb a b = true -> bytes_ltb b c = true -> bytes_ltb a c = true.
Proof.
  revert b c. induction a as [|x a IH]; intros [|y b] [|z c]; cbn; try done.
  destruct (N.ltb_spec x y), (N.ltb_spec y z), (N.ltb_spec x z), (N.eqb_spec x y), (N.eqb_spec y z), (N.eqb_spec x z); try done; try lia. apply IH.
Qed.
Lemma bytes_ltb_total a b : a <> b -> bytes_ltb a b = false -> bytes_ltb b a = true.
Proof.
  revert b. induction a as [|x a IH]; intros [|y b]; cbn; try done.
  destruct (N.ltb_spec x y), (N.eqb_spec x y), (N.ltb_spec y x), (N.eqb_spec y x); try done; try lia. subst. intros NE. apply IH. congruence.
Qed.
Lemma bytes_ltb_asym a b : bytes_ltb a b = true -> bytes_ltb b a = false.
Proof. intros L. destruct (bytes_ltb b a) eqn:E; [|done]. pose proof (bytes_ltb_trans _ _ _ L E) as C. by rewrite bytes_ltb_irr in C. Qed.

#[global] Instance lex_dec a b : Decision (lex_lt a b).
Proof. destruct (bytes_ltb a b) eqn:E; [left; by apply bytes_ltb_lex|right; intros H; apply bytes_ltb_lex in H; congruence]. Defined.
(** The rank of a key: how many keys of the list are smaller. *)
Definition rank (l : list bytes) (x : bytes) : nat := length (filter (fun y => lex_lt y x) l).
(** Bit [i] of a bitmap: bit [i] counted from the front, each byte from its most significant bit. *)
Definition marked (bm : bytes) (i : nat) : Prop :=
  exists b, bm !! (i `div` 8)%nat = Some b /\ N.testbit b (7 - N.of_nat (i mod 8)) = true.
#[global] Instance marked_dec bm i : Decision (marked bm i).
Proof.
  unfold marked. destruct (bm !! (i `div` 8)%nat) as [b|].
  - destruct (N.testbit b (7 - N.of_nat (i mod 8))) eqn:E; [left; by exists b|right]. intros (c & [= <-] & F). congruence.
  - right. intros (c & ? & _). done.
Defined.
(** The validators whose keys stand at marked places of the ordered list. *)
Definition signers (l : list t_validator) (bm : bytes) : list t_validator := filter (fun v => marked bm (rank (map tv_pub l) (tv_pub v))) l.

Lemma bits_lookup bm i : bitmap_bits bm !! i = Some true <-> marked bm i.
Proof.
  revert i. induction bm as [|b bm IH]; intros i.
  - unfold marked. cbn. split; [done|]. intros (c & E & _). done.
  - unfold bitmap_bits. cbn [flat_map]. fold (bitmap_bits bm).
    destruct (decide (i < 8)%nat) as [L|L].
    + rewrite lookup_app_l by (cbn; lia). unfold marked. rewrite Nat.div_small, Nat.mod_small by done. cbn [lookup list_lookup].
      do 8 (destruct i as [|i]; [cbn; split; [intros [= E]; by exists b|intros (c & [= <-] & E); f_equal; exact E]|]). lia.
    + rewrite lookup_app_r by (cbn; lia). change (length (byte_bits b)) with 8%nat. rewrite IH. unfold marked.
      assert (exists j, i = (j + 1 * 8)%nat) as [j ->] by (exists (i - 8)%nat; lia).
      replace (j + 1 * 8 - 8)%nat with j by lia. rewrite Nat.div_add, Nat.mod_add, Nat.add_1_r by done. reflexivity.
Qed.

(* ---- sorting ---- *)
Lemma insert_perm v l : insert_validator v l ≡ₚ v :: l.
Proof. induction l as [|w l IH]; cbn; [done|]. destruct (bytes_ltb _ _); [|done]. rewrite IH. constructor. Qed.
Lemma sort_perm l : sort_validators l ≡ₚ l.
Proof. induction l as [|v l IH]; cbn; [done|]. rewrite insert_perm. by rewrite IH. Qed.
Definition before (v w : t_validator) : Prop := bytes_ltb (tv_pub v) (tv_pub w) = true.
#[local] Instance before_trans : Transitive before.
Proof. intros a b c. apply bytes_ltb_trans. Qed.
Lemma insert_sorted v l : (forall w, w ∈ l -> tv_pub w <> tv_pub v) -> StronglySorted before l -> StronglySorted before (insert_validator v l).
Proof.
  intros D S. induction S as [|w l S IH F]; cbn; [repeat constructor|].
  destruct (bytes_ltb (tv_pub w) (tv_pub v)) eqn:E.
  - constructor; [apply IH; intros u U; apply D, elem_of_cons; by right|].
    rewrite insert_perm. constructor; done.
  - assert (L : before v w) by (apply bytes_ltb_total; [apply D, elem_of_cons; by left|done]).
    constructor; [by constructor|]. constructor; [done|]. eapply Forall_impl; [exact F|]. intros u U. exact (before_trans _ _ _ L U).
Qed.
Lemma sort_sorted l : NoDup (map tv_pub l) -> StronglySorted before (sort_validators l).
Proof.
  induction l as [|v l IH]; intros ND; cbn; [constructor|]. cbn in ND. apply NoDup_cons in ND as [NI ND].
  apply insert_sorted; [|by apply IH]. intros w W E. apply NI. rewrite <- E. apply elem_of_list_fmap. exists w. split; [done|].
  by rewrite (sort_perm l) in W.
Qed.

Lemma rank_perm l l' x : l ≡ₚ l' -> rank l x = rank l' x.
Proof. intros P. unfold rank. by rewrite P. Qed.
(** In the ordered list the validator at place [i] has rank [i]. *)
Lemma sorted_rank s pre v : StronglySorted before (pre ++ v :: s) -> rank (map tv_pub (pre ++ v :: s)) (tv_pub v) = length pre.
Proof.
  intros S. unfold rank. rewrite map_app, filter_app, app_length. cbn [map].
  assert (A : filter (fun y => lex_lt y (tv_pub v)) (map tv_pub pre) = map tv_pub pre).
  { clear -S. induction pre as [|w pre IH]; [done|]. cbn in S. apply StronglySorted_inv in S as [S F]. cbn [map].
    rewrite filter_cons_True; [by rewrite IH|]. apply bytes_ltb_lex. rewrite Forall_forall in F. apply (F v), elem_of_app. right. apply elem_of_cons. by left. }
  assert (B : filter (fun y => lex_lt y (tv_pub v)) (tv_pub v :: map tv_pub s) = []).
  { rewrite filter_cons_False by (rewrite <- bytes_ltb_lex, bytes_ltb_irr; done).
    assert (F : Forall (before v) s).
    { clear -S. induction pre as [|w pre IH]; [by apply StronglySorted_inv in S as [_ ?]|]. cbn in S. apply StronglySorted_inv in S as [S _]. auto. }
    clear -F. induction F as [|w s B F IH]; [done|]. cbn [map]. rewrite filter_cons_False; [done|].
    rewrite <- bytes_ltb_lex. by rewrite (bytes_ltb_asym _ _ B). }
  rewrite A, B, map_length. cbn. lia.
Qed.

Lemma filter_perm {A} (Q : A -> Prop) `{!forall x, Decision (Q x)} l l' : l ≡ₚ l' -> filter Q l ≡ₚ filter Q l'.
Proof. by intros ->. Qed.
Lemma signers_perm l l' bm : l ≡ₚ l' -> signers l bm ≡ₚ signers l' bm.
Proof.
  intros PM. unfold signers. etransitivity; [apply filter_perm, PM|]. apply reflexive_eq, list_filter_iff. intros v.
  by rewrite (rank_perm (map tv_pub l) (map tv_pub l')) by (by apply Permutation_map).
Qed.

Section Verify.
  Variable B : bls.

  Lemma pick_spec full pre s bm : full = pre ++ s -> StronglySorted before full ->
    pick_keys B s (drop (length pre) (bitmap_bits bm)) =
    let sel := filter (fun v => marked bm (rank (map tv_pub full) (tv_pub v))) s in
    if forallb (fun v => key_ok B (tv_bls v)) sel then Some (map tv_bls sel) else None.
  Proof using.
    intros E S. revert pre E. induction s as [|v s IH]; intros pre E.
    - done.
    - assert (R : rank (map tv_pub full) (tv_pub v) = length pre) by (subst full; by apply sorted_rank).
      specialize (IH (pre ++ [v])). rewrite app_length in IH. cbn [length] in IH. rewrite <- app_assoc in IH. specialize (IH E).
      rewrite <- drop_drop in IH.
      destruct (drop (length pre) (bitmap_bits bm)) as [|bit bits] eqn:DR.
      + assert (NM : forall i, (length pre <= i)%nat -> ~ marked bm i).
        { intros i L M. apply bits_lookup in M. apply lookup_lt_Some in M. assert (length (drop (length pre) (bitmap_bits bm)) = 0)%nat by (by rewrite DR). rewrite drop_length in H. lia. }
        rewrite filter_cons_False by (rewrite R; apply NM; lia). cbn [pick_keys].
        replace (drop 1 (@nil bool)) with (@nil bool) in IH by done. destruct s; [done|]. cbn [pick_keys] in IH. exact IH.
      + assert (BT : bitmap_bits bm !! length pre = Some bit).
        { rewrite <- (take_drop (length pre) (bitmap_bits bm)), DR. rewrite lookup_app_r by (rewrite take_length; lia).
          assert (length (drop (length pre) (bitmap_bits bm)) = (1 + length bits)%nat) by (by rewrite DR). rewrite drop_length in H.
          rewrite take_length. replace (length pre - length pre `min` length (bitmap_bits bm))%nat with 0%nat by lia. done. }
        change (drop 1 (bit :: bits)) with bits in IH. destruct bit.
        * rewrite filter_cons_True by (rewrite R; by apply bits_lookup). cbn [pick_keys forallb map]. rewrite IH.
          cbn zeta. destruct (key_ok B (tv_bls v)); [|done]. cbn [andb]. by destruct (forallb _ _).
        * rewrite filter_cons_False; [cbn [pick_keys]; exact IH|]. rewrite R, <- bits_lookup, BT. congruence.
  Qed.

  (** the keys handed to the aggregation, in the order of their public keys *)
  Definition ordered_keys (l : list t_validator) (bm : bytes) : list bytes := map tv_bls (signers (sort_validators l) bm).
  Lemma ordered_keys_perm l bm : ordered_keys l bm ≡ₚ map tv_bls (signers l bm).
  Proof using.
    unfold ordered_keys. apply Permutation_map, signers_perm, sort_perm.
  Qed.

  Lemma extract_iff p l ks : NoDup (map tv_pub l) ->
    extract_pks B p l = Ok ks <->
    ks = ordered_keys l (tp_bitmap p) /\ Forall (fun v => key_ok B (tv_bls v) = true) (signers l (tp_bitmap p)) /\ (2 * length l < 3 * length (signers l (tp_bitmap p)))%nat.
  Proof using.
    intros ND. unfold extract_pks. pose proof (pick_spec (sort_validators l) [] (sort_validators l) (tp_bitmap p) eq_refl (sort_sorted l ND)) as PK.
    cbn [length] in PK. rewrite drop_0 in PK. rewrite PK. cbn zeta. fold (signers (sort_validators l) (tp_bitmap p)).
    pose proof (signers_perm _ _ (tp_bitmap p) (sort_perm l)) as SP.
    assert (FB : forallb (fun v => key_ok B (tv_bls v)) (signers (sort_validators l) (tp_bitmap p)) = true <-> Forall (fun v => key_ok B (tv_bls v) = true) (signers l (tp_bitmap p))).
    { rewrite forallb_forall, <- SP, Forall_forall. split; intros H x X; apply H; by apply elem_of_list_In. }
    destruct (forallb _ _) eqn:E.
    - apply proj1 in FB. specialize (FB eq_refl). fold (ordered_keys l (tp_bitmap p)).
      assert (LK : length (ordered_keys l (tp_bitmap p)) = length (signers l (tp_bitmap p))) by (unfold ordered_keys; by rewrite map_length, (Permutation_length SP)).
      rewrite LK, (Permutation_length (sort_perm l)).
      destruct (Nat.leb_spec (length (signers l (tp_bitmap p)) * 3) (length l * 2)).
      + split; [done|]. intros (_ & _ & ?). lia.
      + split; [intros [= <-]; repeat split; [done|lia]|by intros (-> & _)].
    - split; [done|]. intros (_ & F & _). apply FB in F. congruence.
  Qed.

  (** Aggregating keys and verifying under the aggregate do not depend on the order of the keys. *)
  Definition orderless : Prop := forall ks ks', ks ≡ₚ ks' ->
    aggregate_ok B ks = aggregate_ok B ks' /\ forall m s, sig_verify B m ks s = sig_verify B m ks' s.

  Variable D : bytes -> bytes.
  (** * C69: exactly what is accepted *)
  Theorem C69_accepts : orderless -> forall b root l p, NoDup (map tv_pub l) ->
    (ToolsModel.verify_proof B D b root l p = Ok tt <->
     D (enc_proposal (with_state_root (n_header (tb_header b)) root (tb_tx_hashes b))) = tp_proposal_hash p /\
     let who := signers l (tp_bitmap p) in
     (2 * length l < 3 * length who)%nat /\ Forall (fun v => key_ok B (tv_bls v) = true) who /\ aggregate_ok B (map tv_bls who) = true /\
     sig_ok B (tp_signature p) = true /\
     sig_verify B (D (enc_list [enc_uint (tp_number p); enc_uint (tp_round p); enc_uint 2; enc_str (tp_proposal_hash p)])) (map tv_bls who) (tp_signature p) = true).
  Proof using.
    intros OL b root l p ND. unfold ToolsModel.verify_proof.
    change (t_enc_proposal (proposal_of b root)) with (enc_proposal (with_state_root (n_header (tb_header b)) root (tb_tx_hashes b))).
    destruct (beqb _ _) eqn:H; cbn [negb]; cycle 1.
    { split; [done|]. intros [E _]. rewrite E in H. assert (beqb (tp_proposal_hash p) (tp_proposal_hash p) = true) by (by apply beqb_eq). congruence. }
    apply beqb_eq in H. pose proof (extract_iff p l) as X.
    destruct (OL _ _ (ordered_keys_perm l (tp_bitmap p))) as [OA OV]. cbn zeta.
    unfold t_enc_vote. cbn [vt_height vt_round vt_type vt_hash].
    destruct (extract_pks B p l) as [ks| |] eqn:E.
    - destruct (proj1 (X ks ND) eq_refl) as (-> & F & Q). rewrite OA, OV.
      set (who := signers l (tp_bitmap p)) in *.
      set (agg := aggregate_ok B (map tv_bls who)). set (so := sig_ok B (tp_signature p)). set (sv := sig_verify B _ (map tv_bls who) (tp_signature p)).
      destruct agg, so, sv; cbn [negb]; split; intros HH; try discriminate HH; try (destruct HH as (_ & _ & _ & ? & ? & ?); discriminate); try reflexivity. split; [exact H|]. split; [exact Q|]. by split.
    - split; [done|]. intros (_ & Q & F & _). by pose proof (proj2 (X _ ND) (conj eq_refl (conj F Q))).
    - split; [done|]. intros (_ & Q & F & _). by pose proof (proj2 (X _ ND) (conj eq_refl (conj F Q))).
  Qed.

  (** It never panics, and the order in which the caller lists the validators does not matter. *)
  Theorem C69_total : forall b root l p, ToolsModel.verify_proof B D b root l p <> Panic.
  Proof using.
    intros b root l p. unfold ToolsModel.verify_proof. destruct (negb _); [done|]. unfold extract_pks. destruct (pick_keys _ _ _); [|done].
    destruct (Nat.leb _ _); [done|]. destruct (negb _); [done|]. destruct (negb _); [done|]. by destruct (sig_verify _ _ _ _).
  Qed.
  Theorem C69_order : orderless -> forall b root l l' p, NoDup (map tv_pub l) -> l ≡ₚ l' ->
    ToolsModel.verify_proof B D b root l p = ToolsModel.verify_proof B D b root l' p.
  Proof using.
    intros OL b root l l' p ND PM.
    assert (ND' : NoDup (map tv_pub l')) by (by rewrite <- PM).
    pose proof (signers_perm l l' (tp_bitmap p) PM) as SP.
    assert (I : ToolsModel.verify_proof B D b root l p = Ok tt <-> ToolsModel.verify_proof B D b root l' p = Ok tt).
    { rewrite !C69_accepts by done. cbn zeta. destruct (OL (map tv_bls (signers l (tp_bitmap p))) (map tv_bls (signers l' (tp_bitmap p)))) as [OA OV]; [by rewrite SP|].
      by rewrite OA, OV, SP, PM. }
    pose proof (C69_total b root l p) as T. pose proof (C69_total b root l' p) as T'.
    destruct (ToolsModel.verify_proof B D b root l p) as [[]| |] eqn:E, (ToolsModel.verify_proof B D b root l' p) as [[]| |] eqn:E'; try done.
    - by destruct (proj1 I eq_refl).
    - by destruct (proj2 I eq_refl).
  Qed.
End Verify.

(** What of a block and a previous state root the proposal hash covers. *)
Definition signed (b : t_block) (root : bytes) :=
  let h := tb_header b in
  (th_prev_hash h, th_proposer h, root, th_transactions_root h, th_signed_txs_hash h, th_timestamp h, th_number h, th_gas_limit h,
   th_extra_data h, n_proof (th_proof h), th_call_system_script_count h, tb_tx_hashes b).

(** Two blocks accepted with proofs for one proposal hash agree on all of these, unless the hash function collides on them. *)
Theorem C69_binds : forall B D b root l p b' root' l' p',
  ToolsModel.verify_proof B D b root l p = Ok tt -> ToolsModel.verify_proof B D b' root' l' p' = Ok tt -> tp_proposal_hash p = tp_proposal_hash p' ->
  let e := enc_proposal (with_state_root (n_header (tb_header b)) root (tb_tx_hashes b)) in
  let e' := enc_proposal (with_state_root (n_header (tb_header b')) root' (tb_tx_hashes b')) in
  wf_block (n_block b) -> wf_block (n_block b') -> fixed 32 root -> fixed 32 root' -> len e < 2 ^ 64 -> len e' < 2 ^ 64 ->
  signed b root = signed b' root' \/ (e <> e' /\ D e = D e').
Proof.
  intros B D b root l p b' root' l' p' V V' EH e e' W W' R R' L L'.
  assert (HE : D e = tp_proposal_hash p).
  { unfold ToolsModel.verify_proof in V. destruct (beqb _ _) eqn:H; [|done]. apply beqb_eq in H. exact H. }
  assert (HE' : D e' = tp_proposal_hash p').
  { unfold ToolsModel.verify_proof in V'. destruct (beqb _ _) eqn:H; [|done]. apply beqb_eq in H. exact H. }
  destruct (decide (e = e')) as [E|NE]; [left|right; split; [done|congruence]].
  assert (G : forall c r, wf_block (n_block c) -> fixed 32 r -> wf_proposal (with_state_root (n_header (tb_header c)) r (tb_tx_hashes c))).
  { intros c r [WH WT] WR. destruct WH as (H1 & H2 & H3 & H4 & H5 & H6 & H7 & H8 & H9 & H10 & H11 & H12 & H13 & H14 & H15 & H16).
    unfold wf_proposal. cbn in *. repeat (apply conj; [assumption|]). assumption. }
  pose proof (proposal_decode _ 0 (G _ _ W R) L) as DD. pose proof (proposal_decode _ 0 (G _ _ W' R') L') as DD'.
  fold e in DD. fold e' in DD'. rewrite E, DD' in DD. injection DD. intros. unfold signed. cbn in *. congruence.
Qed.

(* ------------------------------------------------------------------------ *)
(** * Agreement with the node *)
Section Agree.
  Variable P : params.
  Variable B : bls.
  Notation num b := (BlockModel.h_number (BlockModel.b_header b)).

  (** Both sides use the same external functions: the node's vote bytes, its reading of the bitmap and its aggregated verification
      are those of the light client. *)
  Definition linked : Prop :=
    orderless B /\
    (forall h r x, vote_bytes P h r x = enc_list [enc_uint h; enc_uint r; enc_uint 2; enc_str x]) /\
    (forall l bm, NoDup l -> exists vs, extract P l bm = Some vs /\ NoDup vs /\ forall x, x ∈ vs <-> x ∈ l /\ marked bm (rank l x)) /\
    (forall m ks s, agg_verify P m ks s = true <->
       Forall (fun k => key_ok B k = true) ks /\ aggregate_ok B ks = true /\ sig_ok B s = true /\ sig_verify B m ks s = true).

  Lemma filter_iff_in {A} (Q R : A -> Prop) `{!forall x, Decision (Q x), !forall x, Decision (R x)} (l : list A) :
    (forall x, x ∈ l -> Q x <-> R x) -> filter Q l = filter R l.
  Proof using.
    induction l as [|x l IH]; intros E; [done|].
    assert (E' : filter Q l = filter R l) by (apply IH; intros y Y; apply E, elem_of_cons; by right).
    pose proof (E x ltac:(apply elem_of_cons; by left)) as X. destruct (decide (Q x)).
    - rewrite !filter_cons_True by tauto. by rewrite E'.
    - rewrite !filter_cons_False by tauto. done.
  Qed.
  Definition weight_of (l : list t_validator) : N := sumw (map n_validator l).
  Lemma wsum_filter (Q : validator -> Prop) `{!forall v, Decision (Q v)} l : wsum (fun v => bool_decide (Q v)) l = sumw (filter Q l).
  Proof using.
    induction l as [|v l IH]; cbn [wsum]; [done|]. destruct (decide (Q v)) as [QV|QV].
    - rewrite filter_cons_True, bool_decide_true by done. cbn [sumw]. lia.
    - rewrite filter_cons_False, bool_decide_false by done. lia.
  Qed.
  Lemma filter_n (Q : bytes -> Prop) `{!forall v, Decision (Q v)} (l : list t_validator) :
    filter (fun v => Q (v_pub v)) (map n_validator l) = map n_validator (filter (fun v => Q (tv_pub v)) l).
  Proof using.
    induction l as [|v l IH]; [done|]. cbn [map]. destruct (decide (Q (tv_pub v))).
    - rewrite !filter_cons_True by done. cbn [map]. by rewrite IH.
    - rewrite !filter_cons_False by done. done.
  Qed.

  (** The node asks for two thirds of the weight, the light client for two thirds of the heads; the node also wants the proof to name
      the block's height.  Everything else is the same. *)
  Theorem C69_node_accepts : linked -> forall s b p l prev m,
    th_number (tb_header b) <> 0 -> block_by_number P s (th_number (tb_header b) - 1) = Ok prev ->
    metadata_at P s (th_number (tb_header b)) = Ok m -> m_start m <= th_number (tb_header b) <= m_end m ->
    m_verifiers m = map n_validator l -> NoDup (map tv_pub l) -> 3 * weight_of l < 2 ^ 64 ->
    let root := h_state_root (BlockModel.b_header prev) in
    let who := signers l (tp_bitmap p) in
    (ConsensusModel.verify_proof P s (n_block b) (n_proof p) = Ok () <->
     tp_number p = th_number (tb_header b) /\
     digest P (enc_proposal (with_state_root (n_header (tb_header b)) root (tb_tx_hashes b))) = tp_proposal_hash p /\
     2 * weight_of l < 3 * weight_of who /\ Forall (fun v => key_ok B (tv_bls v) = true) who /\ aggregate_ok B (map tv_bls who) = true /\
     sig_ok B (tp_signature p) = true /\
     sig_verify B (digest P (enc_list [enc_uint (tp_number p); enc_uint (tp_round p); enc_uint 2; enc_str (tp_proposal_hash p)])) (map tv_bls who) (tp_signature p) = true).
  Proof using.
    intros (OL & VB & EX & AV) s b p l prev m NZ PV MD [R1 R2] VL ND WT root who.
    assert (ND' : NoDup (map v_pub (map n_validator l))) by (rewrite map_map; exact ND).
    assert (PE : map v_pub (m_verifiers m) = map tv_pub l) by (rewrite VL, map_map; done).
    destruct (EX (map tv_pub l) (tp_bitmap p) ND) as (vs & XE & NV & VS).
    assert (FW : filter (fun v => v_pub v ∈ vs) (map n_validator l) = map n_validator who).
    { etransitivity; [exact (filter_n (fun x => x ∈ vs) l)|]. f_equal. unfold who, signers. apply filter_iff_in. intros v V.
      rewrite VS. split; [by intros [_ ?]|]. intros. split; [|done]. apply elem_of_list_fmap. by exists v. }
    assert (KE : signer_keys (m_verifiers m) vs = map tv_bls who).
    { unfold signer_keys. rewrite VL. etransitivity; [apply f_equal, FW|]. by rewrite map_map. }
    assert (WE : wsum (fun v => bool_decide (v_pub v ∈ vs)) (map n_validator l) = weight_of who).
    { etransitivity; [apply wsum_filter|]. by rewrite FW. }
    unfold ConsensusModel.verify_proof. cbn [n_block BlockModel.b_header n_header BlockModel.h_number b_tx_hashes n_proof pf_number pf_round pf_block_hash pf_signature pf_bitmap].
    rewrite (proj2 (N.eqb_neq _ _) NZ), PV, MD, PE, XE.
    destruct (N.eqb_spec (th_number (tb_header b)) (tp_number p)) as [EN|EN]; cbn [negb]; cycle 1.
    { split; [done|]. intros [E _]. congruence. }
    fold (n_header (tb_header b)). unfold proposal_hash. fold root.
    destruct (beqb _ _) eqn:H; cbn [negb]; cycle 1.
    { split; [done|]. intros (_ & E & _). rewrite E in H. assert (beqb (tp_proposal_hash p) (tp_proposal_hash p) = true) by (by apply beqb_eq). congruence. }
    apply beqb_eq in H. rewrite (proj2 (N.leb_le _ _) R1), (proj2 (N.leb_le _ _) R2). cbn [andb negb].
    rewrite KE, VB, VL. split.
    - destruct (verify_proof_weight _ _) as [[]| |] eqn:W; [|done|done]. intros A.
      assert (A' : agg_verify P (digest P (enc_list [enc_uint (tp_number p); enc_uint (tp_round p); enc_uint 2; enc_str (tp_proposal_hash p)]))
         (map tv_bls who) (tp_signature p) = true) by (by destruct (agg_verify _ _ _ _)).
      apply AV in A' as (A1 & A2 & A3 & A4). destruct (verify_weight_ok _ _ ND' NV W) as [_ Q].
      rewrite WE in Q. repeat (apply conj; [done|]). apply conj; [by apply Forall_fmap in A1|]. done.
    - intros (_ & _ & Q & F & A2 & A3 & A4).
      rewrite (verify_weight_accepts (map n_validator l) vs); [|exact ND'|exact NV| |exact WT|rewrite WE; exact Q].
      + assert (A' : agg_verify P (digest P (enc_list [enc_uint (tp_number p); enc_uint (tp_round p); enc_uint 2; enc_str (tp_proposal_hash p)]))
         (map tv_bls who) (tp_signature p) = true) by (apply AV; repeat split; [by apply Forall_fmap|done|done|done]). by rewrite A'.
      + intros x X. rewrite map_map. by apply VS in X as [? _].
  Qed.

  Lemma weight_equal w l : Forall (fun v => tv_weight v = w) l -> weight_of l = w * N.of_nat (length l).
  Proof using. unfold weight_of. induction 1 as [|v l E F IH]; cbn [map sumw length]; [lia|]. rewrite IH. cbn. lia. Qed.

  (** If every validator has the same weight and the proof names the block's height, the light client, given the state root of the
      node's previous block, accepts exactly what the node accepts. *)
  Theorem C69_agrees_partial : linked -> forall s b p l prev m w,
    th_number (tb_header b) <> 0 -> block_by_number P s (th_number (tb_header b) - 1) = Ok prev ->
    metadata_at P s (th_number (tb_header b)) = Ok m -> m_start m <= th_number (tb_header b) <= m_end m ->
    m_verifiers m = map n_validator l -> NoDup (map tv_pub l) -> 3 * weight_of l < 2 ^ 64 ->
    0 < w -> Forall (fun v => tv_weight v = w) l -> tp_number p = th_number (tb_header b) ->
    (ConsensusModel.verify_proof P s (n_block b) (n_proof p) = Ok () <->
     ToolsModel.verify_proof B (digest P) b (h_state_root (BlockModel.b_header prev)) l p = Ok tt).
  Proof using.
    intros LK s b p l prev m w NZ PV MD R VL ND WT WP WF EN.
    rewrite (C69_node_accepts LK s b p l prev m) by done. rewrite C69_accepts by (done || apply LK). cbn zeta.
    assert (WS : Forall (fun v => tv_weight v = w) (signers l (tp_bitmap p))).
    { rewrite Forall_forall in WF |- *. intros v V. apply WF. unfold signers in V. by apply elem_of_list_filter in V as [_ V]. }
    rewrite (weight_equal w _ WF), (weight_equal w _ WS).
    assert (Q : 2 * (w * N.of_nat (length l)) < 3 * (w * N.of_nat (length (signers l (tp_bitmap p)))) <-> (2 * length l < 3 * length (signers l (tp_bitmap p)))%nat) by nia.
    rewrite Q. tauto.
  Qed.
End Agree.

(* ------------------------------------------------------------------------ *)
(** * A concrete chain *)
Definition key_sum (ks : list bytes) : N := foldr (fun k a => be_val k + a) 0 ks.
Definition y_sign (m : bytes) (ks : list bytes) : bytes := x_digest (m ++ be_fixed 8 (key_sum ks)).
Definition YB : bls := Bls (fun k => Nat.eqb (length k) 1) (fun ks => negb (Nat.eqb (length ks) 0)) (fun s => Nat.eqb (length s) 32)
  (fun m ks s => beqb s (y_sign m ks)).
Definition y_agg (m : bytes) (ks : list bytes) (s : bytes) : bool :=
  forallb (key_ok YB) ks && aggregate_ok YB ks && sig_ok YB s && sig_verify YB m ks s.
(** [validators] is the list of the metadata *)
Definition Y (validators : list t_validator) : params := {|
  digest := x_digest; stx := N; stx_hash := be_fixed 32; rcpt := N; rcpt_hash := be_fixed 32;
  stxs_digest := x_digest; txs_root := fun l => x_digest (concat l);
  enc_txs := fun l => l; dec_txs := fun l => Ok l;
  metadata := fun _ _ => Ok (Meta_ 0 100 (map n_validator validators));
  extract := fun l bm => Some (filter (fun x => marked bm (rank l x)) l);
  vote_bytes := fun h r x => enc_list [enc_uint h; enc_uint r; enc_uint 2; enc_str x]; agg_verify := y_agg;
  exec := x_exec; receipts_of := fun _ l _ => l; after_save := fun _ _ => Ok () |}.

Lemma key_sum_perm ks ks' : ks ≡ₚ ks' -> key_sum ks = key_sum ks'.
Proof. induction 1; cbn [key_sum foldr] in *; unfold key_sum in *; cbn [foldr] in *; lia. Qed.
Lemma YB_orderless : orderless YB.
Proof.
  intros ks ks' PM. split; [cbn; by rewrite (Permutation_length PM)|]. intros m s. cbn. unfold y_sign. by rewrite (key_sum_perm _ _ PM).
Qed.
Lemma Y_linked l : linked (Y l) YB.
Proof.
  split; [apply YB_orderless|]. split; [done|]. split.
  - intros ks bm ND. eexists. split; [reflexivity|]. split; [by apply NoDup_filter|]. intros x. rewrite elem_of_list_filter. tauto.
  - intros m ks s. change (agg_verify (Y l) m ks s) with (y_agg m ks s). unfold y_agg. rewrite !andb_true_iff, forallb_forall, Forall_forall.
    split.
    + intros [[[F A] S] V]. split; [|done]. intros k K. by apply F, elem_of_list_In.
    + intros (F & A & S & V). repeat split; try done. intros k K. by apply F, elem_of_list_In.
Qed.

(** four validators, not in the order of their keys *)
Definition y_list (w1 w2 w3 w4 : N) : list t_validator := [TValidator [13] [3] w3; TValidator [11] [1] w1; TValidator [14] [4] w4; TValidator [12] [2] w2].
Definition y_node (l : list t_validator) : outcome (node (Y l)) := boot (Y l) (genesis_store (Y l) x_genesis [] []) ∅.
Definition y_verify (l : list t_validator) (b : t_block) (p : t_proof) : outcome unit :=
  match y_node l with Ok n => ConsensusModel.verify_proof (Y l) (store (Y l) n) (n_block b) (n_proof p) | _ => Panic end.
Definition t_none : t_proof := TProof 0 0 (repeat 0 32) [] [].
Definition y_root : bytes := h_state_root (BlockModel.b_header x_genesis).
Definition y_block (root : bytes) (gas chain : N) : t_block :=
  TBlock (THeader (x_digest (enc_hdr (BlockModel.b_header x_genesis))) (repeat 9 20) root (x_digest (be_fixed 32 41)) (x_digest [41]) (repeat 4 32)
    (repeat 0 256) 110 1 gas 30000000 [] 7 t_none 0 chain) [be_fixed 32 41].
(** a proof over the vote (number, round 0) by the validators marked in [bm] *)
Definition y_proof (b : t_block) (number : N) (bm : bytes) (keys : list bytes) : t_proof :=
  let h := x_digest (t_enc_proposal (proposal_of b y_root)) in
  TProof number 0 h (y_sign (x_digest (enc_list [enc_uint number; enc_uint 0; enc_uint 2; enc_str h])) keys) bm.
Definition y_b := y_block (x_digest [2]) 21000 5.

(** All weights equal: three of four are accepted by both, two of four by neither. *)
Example C69_example :
  let l := y_list 5 5 5 5 in
  let p := y_proof y_b 1 [0xD0] [[11];[12];[14]] in
  let q := y_proof y_b 1 [0xC0] [[11];[12]] in
  ToolsModel.verify_proof YB x_digest y_b y_root l p = Ok tt /\ y_verify l y_b p = Ok () /\
  ToolsModel.verify_proof YB x_digest y_b y_root l q = Err /\ y_verify l y_b q = Err /\ NoDup (map tv_pub l) /\
  map tv_bls (signers l [0xD0]) = [[11];[14];[12]].
Proof.
  cbn zeta. apply conj; [vmr|]. apply conj; [vmr|]. apply conj; [vmr|]. apply conj; [vmr|]. apply conj; [|vmr].
  apply (bool_decide_eq_true_1 _). vmr.
Qed.

(** The light client does not look at the weights: three light validators pass for a quorum that the node refuses, and one heavy
    validator commits a block on the node that the light client refuses. *)
Theorem C69_weights_refuted : exists l b p q, NoDup (map tv_pub l) /\ linked (Y l) YB /\
  ToolsModel.verify_proof YB (digest (Y l)) b y_root l p = Ok tt /\ y_verify l b p = Err /\
  ToolsModel.verify_proof YB (digest (Y l)) b y_root l q = Err /\ y_verify l b q = Ok ().
Proof.
  exists (y_list 30 1 1 1), y_b, (y_proof y_b 1 [0x70] [[12];[13];[14]]), (y_proof y_b 1 [0x80] [[11]]).
  apply conj; [apply (bool_decide_eq_true_1 _); vmr|]. apply conj; [apply Y_linked|].
  apply conj; [vmr|]. apply conj; [vmr|]. apply conj; vmr.
Qed.
(** It does not compare the height of the proof with that of the block. *)
Theorem C69_height_refuted : exists l b p, NoDup (map tv_pub l) /\ linked (Y l) YB /\ Forall (fun v => tv_weight v = 5) l /\
  tp_number p <> th_number (tb_header b) /\
  ToolsModel.verify_proof YB (digest (Y l)) b y_root l p = Ok tt /\ y_verify l b p = Err.
Proof.
  exists (y_list 5 5 5 5), y_b, (y_proof y_b 77 [0xD0] [[11];[12];[14]]).
  apply conj; [apply (bool_decide_eq_true_1 _); vmr|]. apply conj; [apply Y_linked|]. apply conj; [repeat constructor|]. apply conj; [done|].
  apply conj; vmr.
Qed.
(** The results of executing a block are not signed with it: with one proof any state root, gas used and chain id pass. *)
Theorem C69_unsigned_refuted : exists l p b b', NoDup (map tv_pub l) /\ linked (Y l) YB /\
  ToolsModel.verify_proof YB (digest (Y l)) b y_root l p = Ok tt /\ ToolsModel.verify_proof YB (digest (Y l)) b' y_root l p = Ok tt /\
  th_state_root (tb_header b) <> th_state_root (tb_header b') /\ th_gas_used (tb_header b) <> th_gas_used (tb_header b') /\
  th_chain_id (tb_header b) <> th_chain_id (tb_header b').
Proof.
  exists (y_list 5 5 5 5), (y_proof y_b 1 [0xD0] [[11];[12];[14]]), y_b, (y_block (repeat 66 32) 1 6).
  apply conj; [apply (bool_decide_eq_true_1 _); vmr|]. apply conj; [apply Y_linked|].
  apply conj; [vmr|]. apply conj; [vmr|]. apply conj; [|by apply conj].
  intros E. apply (f_equal (fun l => nth 0 l 0)) in E. vm_compute in E. discriminate E.
Qed.

Print Assumptions C69_same_bytes.
Print Assumptions C69_accepts.
Print Assumptions C69_total.
Print Assumptions C69_order.
Print Assumptions C69_binds.
Print Assumptions C69_node_accepts.
Print Assumptions C69_agrees_partial.
Print Assumptions C69_weights_refuted.
Print Assumptions C69_height_refuted.
Print Assumptions C69_unsigned_refuted.
