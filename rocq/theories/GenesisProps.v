(** A fresh data directory is what the chain spec says (C87). *)
From Verif Require Import Bytes BytesProofs Rlp TxModel BlockModel BloomModel CellModel MetaModel ExecModel HardforkModel GenesisModel MetaProofs MetaProps.
From stdpp Require Import base gmap.
From Coq Require Import Lia.
Local Open Scope N_scope.

(* ---------------- the specification ---------------- *)
(** The balance that the chain spec gives an address: that of the last entry. *)
Definition last_entry (l : list (bytes * N)) (a : bytes) : option N := option_map snd (List.find (fun e => beqb e.1 a) (List.rev l)).
Definition system_account (a : bytes) : Prop := a = METADATA \/ a = CKB \/ a = IMAGE.
(** The numbers of the chain spec that a chain can start with. *)
Definition usable (address_of : bytes -> option bytes) (sp : spec) : Prop :=
  sp_epoch sp = 0 /\ 0 < sp_end sp /\ 2 * sp_end sp + 1 < 2 ^ 64 /\ Forall (fun v => address_of (sv_pub v) <> None) (sp_validators sp).

Section Props.
  Variable keccak : bytes -> bytes.
  Variable meta_abi : bytes -> option meta_call.
  Context {hdr : Type}.
  Variables hdr_hash hdr_enc : hdr -> bytes.
  Variables ckb_abi image_abi : bytes -> option (@cell_call hdr).
  Variable evm : xstate -> N -> stx -> evm_out.
  Variable root_of : xstate -> bytes.
  Variable address_of : bytes -> option bytes.
  Notation init := (GenesisModel.init keccak meta_abi hdr_hash hdr_enc ckb_abi image_abi evm root_of address_of).
  Notation init_cut := (GenesisModel.init_cut keccak meta_abi hdr_hash hdr_enc ckb_abi image_abi evm root_of address_of).
  Notation init_writes := (GenesisModel.init_writes keccak meta_abi hdr_hash hdr_enc ckb_abi image_abi evm root_of address_of).
  Notation extend := (GenesisModel.extend address_of).

  (* ---------------- accounts ---------------- *)
  Lemma insert_accounts_snoc l e : insert_accounts (l ++ [e]) = <[e.1 := Acc 0 (e.2) ∅ NIL_CODE]> (insert_accounts l).
  Proof. unfold insert_accounts. by rewrite fold_left_app. Qed.
  Lemma insert_accounts_at l a : insert_accounts l !! a = option_map (fun b => Acc 0 b ∅ NIL_CODE) (last_entry l a).
  Proof.
    induction l as [|e l IH] using rev_ind; [done|]. rewrite insert_accounts_snoc. unfold last_entry. rewrite rev_app_distr. cbn [List.rev app List.find].
    destruct (beqb e.1 a) eqn:E.
    - apply beqb_eq in E. subst a. by rewrite lookup_insert.
    - rewrite lookup_insert_ne; [exact IH|]. intros Q. apply beqb_eq in Q. congruence.
  Qed.
  Lemma touch_at s1 s2 a b : xs_acc s2 !! a = xs_acc s1 !! a ->
    xs_acc (apply_one keccak false s2 (touch s1 a)) !! b = if beqb b a then Some (get_account (xs_acc s1) a) else xs_acc s2 !! b.
  Proof.
    intros E. unfold touch, apply_one, modify. rewrite andb_false_r. cbn [xs_acc]. unfold get_account. rewrite E.
    destruct (beqb b a) eqn:B.
    - apply beqb_eq in B. subst b. rewrite lookup_insert. cbn. f_equal. by destruct (default acc0 (xs_acc s1 !! a)).
    - rewrite lookup_insert_ne; [done|]. intros Q. symmetry in Q. apply beqb_eq in Q. congruence.
  Qed.
  Lemma touch_frame s1 s2 a : let s' := apply_one keccak false s2 (touch s1 a) in
    xs_code s' = xs_code s2 /\ xs_logs s' = xs_logs s2 /\ xs_ctx s' = xs_ctx s2 /\ xs_meta s' = xs_meta s2 /\ xs_cells s' = xs_cells s2 /\ xs_hf s' = xs_hf s2.
  Proof. unfold touch, apply_one, modify. rewrite andb_false_r. by repeat split. Qed.
  Lemma init_frame s : let s1 := apply_ops keccak s [touch s CKB; touch s IMAGE] [] false in
    xs_code s1 = xs_code s /\ xs_ctx s1 = xs_ctx s /\ xs_meta s1 = xs_meta s /\ xs_cells s1 = xs_cells s /\ xs_hf s1 = xs_hf s.
  Proof.
    unfold apply_ops. cbn [fold_left set_logs xs_code xs_ctx xs_meta xs_cells xs_hf].
    destruct (touch_frame s s CKB) as (? & ? & ? & ? & ? & ?). destruct (touch_frame s (apply_one keccak false s (touch s CKB)) IMAGE) as (? & ? & ? & ? & ? & ?).
    repeat split; etransitivity; eassumption.
  Qed.
  Lemma system_init_err sp md0 md1 hf : append_metadata 0 meta0 md0 = Err -> system_init keccak (state0 sp) md0 md1 hf = Err.
  Proof. intros E. unfold system_init. destruct (init_frame (state0 sp)) as (_ & _ & Fm & _ & Fh). rewrite Fm, Fh. cbn [state0 xs_meta xs_hf]. by rewrite E. Qed.

  (* ---------------- metadata ---------------- *)
  Definition same_validator (sv : sval) (v : validator) : Prop :=
    v_bls v = sv_bls sv /\ v_pub v = sv_pub sv /\ address_of (sv_pub sv) = Some (v_address v) /\ v_propose v = sv_propose sv /\ v_weight v = sv_weight sv.
  Lemma extend_ok l : Forall (fun v => address_of (sv_pub v) <> None) l -> exists vs, extend l = Ok vs /\ Forall2 same_validator l vs.
  Proof.
    induction 1 as [|v l Hv _ (vs & E & F)]; [exists []; by split|]. cbn [GenesisModel.extend].
    destruct (address_of (sv_pub v)) as [a|] eqn:A; [|done]. rewrite E. eexists. split; [done|]. constructor; [|done]. by repeat split.
  Qed.
  Lemma extend_none l : ~ Forall (fun v => address_of (sv_pub v) <> None) l -> extend l = Panic.
  Proof.
    induction l as [|v l IH]; intros H; [by destruct H|]. cbn [GenesisModel.extend]. destruct (address_of (sv_pub v)) as [a|] eqn:A; [|done].
    rewrite IH; [done|]. intros F. apply H. constructor; [by rewrite A|done].
  Qed.

  Definition counters (vs : list validator) : list (bytes * N) := map (fun a => (a, 0)) (btree_keys (map v_address vs)).
  Definition genesis_meta (sp : spec) (vs : list validator) : meta :=
    let e := sp_end sp in
    Meta_ [0; e; 2 * e]
      (<[1 := Inner_ (e + 1) (2 * e) 1 vs (counters vs)]> (<[0 := Inner_ (sp_start sp) e 0 vs (counters vs)]> ∅))
      (Some (CfgV0 (cf_base (sp_config sp)))) None (Some [(0, input_flags (sp_hardforks sp))]).
  Lemma metadata_01_ok sp : usable address_of sp -> exists vs, Forall2 same_validator (sp_validators sp) vs /\
    metadata_01 address_of sp = Ok (Metadata_ (Inner_ (sp_start sp) (sp_end sp) 0 vs []) (sp_config sp),
                        Metadata_ (Inner_ (sp_end sp + 1) (2 * sp_end sp) 1 vs []) (sp_config sp)).
  Proof.
    intros (E & P & B & F). destruct (extend_ok _ F) as (vs & X & Y). exists vs. split; [done|]. unfold metadata_01, U64_MAX. rewrite E, X.
    rewrite (proj2 (N.eqb_neq (sp_end sp) (2 ^ 64 - 1))) by lia. rewrite (proj2 (N.ltb_ge (2 ^ 64 - 1) (sp_end sp + 1 + sp_end sp))) by lia.
    change (0 =? 2 ^ 64 - 1) with false. cbn [orb]. replace (sp_end sp + 1 + sp_end sp - 1) with (2 * sp_end sp) by lia. done.
  Qed.
  Lemma append_0 sp vs : 0 < sp_end sp -> append_metadata 0 meta0 (Metadata_ (Inner_ (sp_start sp) (sp_end sp) 0 vs []) (sp_config sp)) =
    Ok (Meta_ [0; sp_end sp] (<[0 := Inner_ (sp_start sp) (sp_end sp) 0 vs (counters vs)]> ∅) (Some (CfgV0 (cf_base (sp_config sp)))) None None).
  Proof.
    intros P. unfold append_metadata, append_endpoint. cbn [md_inner md_config mt_segment meta0 segment0 mi_epoch mi_start mi_end mi_verifiers seg_empty length seg_last List.last].
    change (0 =? U64_MAX) with false. rewrite (proj2 (N.leb_gt (sp_end sp) 0)) by lia. rewrite !andb_false_r. cbn. done.
  Qed.
  Lemma append_1 sp vs m : 0 < sp_end sp -> 2 * sp_end sp + 1 < 2 ^ 64 ->
    append_metadata 0 (Meta_ [0; sp_end sp] m (Some (CfgV0 (cf_base (sp_config sp)))) None None)
      (Metadata_ (Inner_ (sp_end sp + 1) (2 * sp_end sp) 1 vs []) (sp_config sp)) =
    Ok (Meta_ [0; sp_end sp; 2 * sp_end sp] (<[1 := Inner_ (sp_end sp + 1) (2 * sp_end sp) 1 vs (counters vs)]> m)
          (Some (CfgV0 (cf_base (sp_config sp)))) None None).
  Proof.
    intros P B. unfold append_metadata, append_endpoint. cbn [md_inner md_config mt_segment mi_epoch mi_start mi_end mi_verifiers seg_empty length seg_last List.last].
    change (latest_epoch [0; sp_end sp] + 1) with 1. change (1 =? 1) with true. cbn [Nat.eqb andb orb negb].
    rewrite (proj2 (N.eqb_neq (sp_end sp) U64_MAX)) by (unfold U64_MAX; lia). rewrite N.eqb_refl. cbn [negb andb].
    rewrite (proj2 (N.leb_gt (2 * sp_end sp) (sp_end sp))) by lia. done.
  Qed.

  Definition genesis_accounts (sp : spec) (acc : accounts) : Prop :=
    forall a, (forall b, last_entry (sp_accounts sp) a = Some b -> acc !! a = Some (Acc 0 b ∅ NIL_CODE)) /\
      (last_entry (sp_accounts sp) a = None -> system_account a -> acc !! a = Some (Acc 0 0 ∅ NIL_CODE)) /\
      (last_entry (sp_accounts sp) a = None -> ~ system_account a -> acc !! a = None).
  Lemma beqb_false a b : a <> b -> beqb a b = false.
  Proof. intros H. destruct (beqb a b) eqn:E; [|done]. by apply beqb_eq in E. Qed.
  Lemma beqb_true a : beqb a a = true.
  Proof. by apply beqb_eq. Qed.
  Lemma system_init_ok sp vs : usable address_of sp -> Forall2 same_validator (sp_validators sp) vs ->
    exists s, system_init keccak (state0 sp) (Metadata_ (Inner_ (sp_start sp) (sp_end sp) 0 vs []) (sp_config sp))
        (Metadata_ (Inner_ (sp_end sp + 1) (2 * sp_end sp) 1 vs []) (sp_config sp)) (input_flags (sp_hardforks sp)) = Ok s /\
      genesis_accounts sp (xs_acc s) /\ xs_code s = ∅ /\ xs_logs s = [] /\ xs_ctx s = XCtx 0 (repeat 0 20) 0 [] /\
      xs_meta s = genesis_meta sp vs /\ xs_cells s = ∅ /\ xs_hf s = 0.
  Proof.
    intros (E & P & B & _) _. unfold system_init, state0.
    set (s := XState (insert_accounts (sp_accounts sp)) ∅ [] (XCtx 0 (repeat 0 20) 0 []) meta0 ∅ 0).
    set (s1 := apply_ops keccak s [touch s CKB; touch s IMAGE] [] false).
    assert (N1 : CKB <> IMAGE) by discriminate. assert (N2 : METADATA <> CKB) by discriminate. assert (N3 : METADATA <> IMAGE) by discriminate.
    assert (F : forall a, xs_acc s1 !! a = if beqb a IMAGE then Some (get_account (xs_acc s) IMAGE) else if beqb a CKB then Some (get_account (xs_acc s) CKB) else xs_acc s !! a).
    { intros a. unfold s1, apply_ops. cbn [fold_left set_logs xs_acc].
      rewrite (touch_at s (apply_one keccak false s (touch s CKB)) IMAGE a) by (rewrite (touch_at s s CKB IMAGE) by done; rewrite beqb_false by done; done).
      by rewrite (touch_at s s CKB a) by done. }
    pose proof (init_frame s) as Fr. fold s1 in Fr. cbv zeta in Fr. destruct Fr as (Fc & Fx & Fm & Fce & Fh). rewrite Fm, Fh. rewrite append_0 by done. rewrite append_1 by done.
    set (s2 := set_meta s1 _). exists (apply_ops keccak s2 [touch s2 METADATA] [] false). split; [done|].
    split.
    2: { destruct (touch_frame s2 s2 METADATA) as (T1 & T2 & T3 & T4 & T5 & T6). unfold apply_ops. cbn [fold_left set_logs xs_code xs_logs xs_ctx xs_meta xs_cells xs_hf].
         rewrite T1, T3, T4, T5, T6. unfold s2, set_meta. cbn [xs_code xs_logs xs_ctx xs_meta xs_cells xs_hf]. by repeat split. }
    assert (G : forall a, xs_acc (apply_ops keccak s2 [touch s2 METADATA] [] false) !! a = if beqb a METADATA then Some (get_account (xs_acc s1) METADATA) else xs_acc s1 !! a).
    { intros a. unfold apply_ops. cbn [fold_left set_logs xs_acc]. by rewrite (touch_at s2 s2 METADATA a). }
    assert (L : forall a, xs_acc s !! a = option_map (fun b => Acc 0 b ∅ NIL_CODE) (last_entry (sp_accounts sp) a)) by (intros a; apply insert_accounts_at).
    assert (L' : forall a, get_account (xs_acc s) a = Acc 0 (default 0 (last_entry (sp_accounts sp) a)) ∅ NIL_CODE)
      by (intros a; unfold get_account; rewrite L; by destruct (last_entry (sp_accounts sp) a)).
    assert (M1 : get_account (xs_acc s1) METADATA = Acc 0 (default 0 (last_entry (sp_accounts sp) METADATA)) ∅ NIL_CODE).
    { unfold get_account. rewrite F, !beqb_false by done. apply L'. }
    intros a. rewrite G, F, M1, L, !L'.
    destruct (beqb a METADATA) eqn:A1; [apply beqb_eq in A1; subst a|].
    { split; [by intros b ->|]. split; [by intros ->|]. intros _ H. destruct H. by left. }
    destruct (beqb a IMAGE) eqn:A2; [apply beqb_eq in A2; subst a|].
    { split; [by intros b ->|]. split; [by intros ->|]. intros _ H. destruct H. by right; right. }
    destruct (beqb a CKB) eqn:A3; [apply beqb_eq in A3; subst a|].
    { split; [by intros b ->|]. split; [by intros ->|]. intros _ H. destruct H. by right; left. }
    split; [by intros b ->|]. split; [|by intros ->].
    intros _ [-> |[-> | ->]]; rewrite beqb_true in *; discriminate.
  Qed.

  Lemma init_writes_ok sp : usable address_of sp -> exists vs s, Forall2 same_validator (sp_validators sp) vs /\
    genesis_accounts sp (xs_acc s) /\ xs_code s = ∅ /\ xs_meta s = genesis_meta sp vs /\ xs_cells s = ∅ /\
    let b := Block_ (genesis_header keccak sp (root_of s)) [] in
    init_writes sp = ([WDir; WTries; WState s; WProof proof0; WBlock b; WLatest b], Ok tt).
  Proof.
    intros U. destruct (metadata_01_ok _ U) as (vs & F & M). destruct (system_init_ok _ _ U F) as (s & I & A & C & Lg & X & Mt & Ce & H).
    exists vs. unfold GenesisModel.init_writes. rewrite M, I. unfold exec_block, contract_limit. rewrite H, X.
    change (enabled ANDROMEDA 0) with false. cbn [exec_loop c_number]. change (0 =? 0) with true. cbn [credit]. unfold meta_after_block.
    change (0 =? 0) with true. cbn iota. exists (XState (xs_acc s) (xs_code s) (xs_logs s) (xs_ctx s) (xs_meta s) (xs_cells s) (xs_hf s)). cbn [set_acc xs_acc xs_code xs_logs xs_ctx xs_meta xs_cells xs_hf]. by repeat (split; [done|]).
  Qed.

  (** init succeeds exactly on the chain specs that a chain can start with. *)
  Theorem C87_init sp : (init sp no_disk).2 = Ok tt <-> usable address_of sp.
  Proof.
    split.
    - unfold GenesisModel.init. cbn [d_dir no_disk snd]. unfold GenesisModel.init_writes, metadata_01, usable, U64_MAX.
      destruct (N.eqb_spec (sp_epoch sp) (2 ^ 64 - 1)); [done|]. destruct (N.eqb_spec (sp_end sp) (2 ^ 64 - 1)); [done|].
      destruct (N.ltb_spec (2 ^ 64 - 1) (sp_end sp + 1 + sp_end sp)) as [|B]; [done|]. cbn [orb].
      destruct (decide (Forall (fun v => address_of (sv_pub v) <> None) (sp_validators sp))) as [F|F]; [|by rewrite extend_none].
      destruct (extend_ok _ F) as (vs & -> & _). intros H.
      destruct (N.eqb_spec (sp_epoch sp) 0) as [E|E].
      2: { rewrite system_init_err in H; [done|]. unfold append_metadata. cbn. by rewrite (proj2 (N.eqb_neq _ _)). }
      split; [done|]. split; [|split; [lia|done]]. destruct (N.eq_0_gt_0_cases (sp_end sp)) as [Z|]; [|done].
      rewrite system_init_err in H; [done|]. rewrite E, Z. unfold append_metadata. cbn -[N.add U64_MAX]. by rewrite andb_false_r.
    - intros U. destruct (init_writes_ok _ U) as (vs & s & _ & _ & _ & _ & _ & E). unfold GenesisModel.init. cbn [d_dir no_disk]. by rewrite E.
  Qed.

  (* ---------------- the directory after init ---------------- *)
  Lemma init_ok sp d : init sp no_disk = (d, Ok tt) -> exists vs s, Forall2 same_validator (sp_validators sp) vs /\
    genesis_accounts sp (xs_acc s) /\ xs_code s = ∅ /\ xs_meta s = genesis_meta sp vs /\ xs_cells s = ∅ /\ usable address_of sp /\
    let b := Block_ (genesis_header keccak sp (root_of s)) [] in d = Disk true (Some s) (Some proof0) (Some b) (Some b).
  Proof.
    intros H. assert (U : usable address_of sp) by (apply C87_init; by rewrite H).
    destruct (init_writes_ok _ U) as (vs & s & F & A & C & M & Ce & E). exists vs, s. repeat (split; [done|]).
    unfold GenesisModel.init in H. cbn [d_dir no_disk] in H. rewrite E in H. by injection H as <-.
  Qed.

  (** Accounts, code and the block: those of the chain spec and the three system accounts, without code, storage or nonce. *)
  Theorem C87_state sp d : init sp no_disk = (d, Ok tt) -> exists s b, d_state d = Some s /\ d_block0 d = Some b /\ d_latest d = Some b /\
    (forall a, (forall x, last_entry (sp_accounts sp) a = Some x -> xs_acc s !! a = Some (Acc 0 x ∅ NIL_CODE)) /\
      (last_entry (sp_accounts sp) a = None -> system_account a -> xs_acc s !! a = Some (Acc 0 0 ∅ NIL_CODE)) /\
      (last_entry (sp_accounts sp) a = None -> ~ system_account a -> xs_acc s !! a = None)) /\
    xs_code s = ∅ /\ xs_cells s = ∅ /\ h_state_root (b_header b) = root_of s /\
    h_number (b_header b) = 0 /\ h_timestamp (b_header b) = sp_timestamp sp /\ h_chain_id (b_header b) = sp_chain_id sp /\
    h_base_fee (b_header b) = sp_base_fee sp /\ h_prev_hash (b_header b) = repeat 0 32 /\ h_gas_used (b_header b) = 0 /\ b_tx_hashes b = [].
  Proof.
    intros H. destruct (init_ok _ _ H) as (vs & s & F & A & C & M & Ce & U & ->). eexists s, _. by repeat (split; [done|]).
  Qed.

  Lemma scan_spec e n : 0 < e -> 0 < n -> get_epoch_number [0; e; 2 * e] n = if n <=? e then Some 0 else if n <=? 2 * e then Some 1 else None.
  Proof.
    intros P Q. unfold get_epoch_number, epoch_scan. rewrite (proj2 (N.ltb_lt 0 n)) by lia. cbn [andb].
    destruct (N.leb_spec n e); [done|]. rewrite (proj2 (N.ltb_lt e n)) by lia. cbn [andb]. by destruct (n <=? 2 * e).
  Qed.
  (** The metadata: one epoch of the chain spec's length with its validators, one more of the same length, then none. *)
  Definition first_epochs (sp : spec) (s : xstate) (n : N) : Prop :=
    match metadata_by_block (xs_meta s) n with
    | Ok md =>
        n <= 2 * sp_end sp /\
        (n <= sp_end sp -> mi_epoch (md_inner md) = 0 /\ mi_start (md_inner md) = sp_start sp /\ mi_end (md_inner md) = sp_end sp) /\
        (sp_end sp < n -> mi_epoch (md_inner md) = 1 /\ mi_start (md_inner md) = sp_end sp + 1 /\ mi_end (md_inner md) = 2 * sp_end sp) /\
        Forall2 same_validator (sp_validators sp) (mi_verifiers (md_inner md)) /\
        List.NoDup (map fst (mi_counter (md_inner md))) /\
        (forall a c, In (a, c) (mi_counter (md_inner md)) <-> c = 0 /\ exists v, In v (sp_validators sp) /\ address_of (sv_pub v) = Some a) /\
        cf_base (md_config md) = cf_base (sp_config sp) /\ cf_max_contract (md_config md) = 0x6000
    | Err => 2 * sp_end sp < n
    | Panic => False
    end.
  Lemma forall2_in l vs : Forall2 same_validator l vs -> (forall v, In v vs -> exists sv, In sv l /\ same_validator sv v) /\ (forall sv, In sv l -> exists v, In v vs /\ same_validator sv v).
  Proof.
    induction 1 as [|sv v l vs H _ [I1 I2]]; [split; intros ? []|]. split.
    - intros w [<-|I]; [exists sv; split; [by left|done]|]. destruct (I1 _ I) as (x & ? & ?). exists x. split; [by right|done].
    - intros w [<-|I]; [exists v; split; [by left|done]|]. destruct (I2 _ I) as (x & ? & ?). exists x. split; [by right|done].
  Qed.
  Lemma counters_spec l vs : Forall2 same_validator l vs -> List.NoDup (map fst (counters vs)) /\
    forall a c, In (a, c) (counters vs) <-> c = 0 /\ exists v, In v l /\ address_of (sv_pub v) = Some a.
  Proof.
    intros F. destruct (btree_keys_spec (map v_address vs)) as [K1 K2]. unfold counters. split.
    - rewrite map_map. cbn. by rewrite map_id.
    - intros a c. rewrite in_map_iff. split.
      + intros (x & E & I). injection E as -> <-. split; [done|]. apply K2, in_map_iff in I as (v & <- & I).
        destruct (proj1 (forall2_in _ _ F) _ I) as (sv & I' & (_ & _ & E & _)). by exists sv.
      + intros (-> & sv & I & E). destruct (proj2 (forall2_in _ _ F) _ I) as (v & I' & (_ & _ & E' & _)).
        exists a. split; [done|]. apply K2, in_map_iff. exists v. split; [congruence|done].
  Qed.
  Theorem C87_metadata sp d : init sp no_disk = (d, Ok tt) -> exists s, d_state d = Some s /\
    (forall n, first_epochs sp s n) /\ (forall n, hardfork_info (xs_meta s) n = input_flags (sp_hardforks sp)).
  Proof.
    intros H. destruct (init_ok _ _ H) as (vs & s & F & A & C & M & Ce & (E0 & P & B & V) & ->). exists s. split; [done|].
    destruct (counters_spec _ _ F) as [N1 N2]. rewrite M. split.
    - intros n. unfold first_epochs. rewrite M. unfold metadata_by_block.
      assert (G0 : get_metadata (genesis_meta sp vs) 0 = Ok (Metadata_ (Inner_ (sp_start sp) (sp_end sp) 0 vs (counters vs)) (Config_ (cf_base (sp_config sp)) default_max_contract_limit))).
      { unfold get_metadata, get_metadata_inner, genesis_meta. cbn [mt_inner]. rewrite lookup_insert_ne by done. by rewrite lookup_insert. }
      assert (G1 : get_metadata (genesis_meta sp vs) 1 = Ok (Metadata_ (Inner_ (sp_end sp + 1) (2 * sp_end sp) 1 vs (counters vs)) (Config_ (cf_base (sp_config sp)) default_max_contract_limit))).
      { unfold get_metadata, get_metadata_inner, genesis_meta. cbn [mt_inner]. by rewrite lookup_insert. }
      destruct (N.eqb_spec n 0) as [->|Nz].
      + rewrite G0. cbn [md_inner md_config mi_epoch mi_start mi_end mi_verifiers mi_counter cf_base cf_max_contract].
        split; [lia|]. split; [done|]. split; [lia|]. by repeat (split; [done|]).
      + cbn [genesis_meta mt_segment]. rewrite scan_spec by lia. destruct (N.leb_spec n (sp_end sp)) as [L|L]; [|destruct (N.leb_spec n (2 * sp_end sp)) as [L2|L2]; [|done]].
        * rewrite G0. cbn [md_inner md_config mi_epoch mi_start mi_end mi_verifiers mi_counter cf_base cf_max_contract].
          split; [lia|]. split; [done|]. split; [lia|]. by repeat (split; [done|]).
        * rewrite G1. cbn [md_inner md_config mi_epoch mi_start mi_end mi_verifiers mi_counter cf_base cf_max_contract].
          split; [lia|]. split; [lia|]. split; [done|]. by repeat (split; [done|]).
    - intros n. unfold hardfork_info, genesis_meta, hf_at. cbn [mt_hardfork List.rev app List.find fst negb].
      by rewrite (proj2 (N.ltb_ge n 0)) by lia.
  Qed.

  (** run on the fresh directory works with the chain spec. *)
  Theorem C87_run sp d : init sp no_disk = (d, Ok tt) -> exists b, GenesisModel.run d = Ok b /\
    bt_number b = 0 /\ bt_chain_id b = sp_chain_id sp /\ bt_hardfork b = input_flags (sp_hardforks sp) /\
    bt_validators b = map (fun v => (sv_pub v, sv_propose v, sv_weight v)) (sp_validators sp) /\
    bt_interval b = cf_interval (cf_base (sp_config sp)) /\ bt_gas_limit b = cf_gas_limit (cf_base (sp_config sp)) /\
    bt_max_tx_size b = cf_max_tx_size (cf_base (sp_config sp)) /\ bt_tx_num b = cf_tx_num (cf_base (sp_config sp)) /\
    bt_ratios b = (cf_propose (cf_base (sp_config sp)), cf_prevote (cf_base (sp_config sp)), cf_precommit (cf_base (sp_config sp)), cf_brake (cf_base (sp_config sp))).
  Proof.
    intros H. destruct (C87_metadata _ _ H) as (s & Es & F & Hf). destruct (init_ok _ _ H) as (vs & s' & _ & _ & _ & _ & _ & _ & ->).
    cbn [d_state] in Es. injection Es as ->. specialize (F 0). unfold first_epochs in F. unfold GenesisModel.run.
    cbn [d_dir d_latest d_state d_proof negb b_header genesis_header h_number h_chain_id].
    destruct (metadata_by_block (xs_meta s) 0) as [md| |]; [|exfalso; lia|done]. destruct F as (_ & _ & _ & V & _ & _ & Cb & _).
    eexists. split; [done|]. cbn [bt_number bt_chain_id bt_hardfork bt_validators bt_interval bt_gas_limit bt_max_tx_size bt_tx_num bt_ratios].
    rewrite Cb. split; [done|]. split; [done|]. split; [apply Hf|]. split; [|by repeat split].
    clear -V. induction V as [|sv v l vs (E1 & E2 & E3 & E4 & E5) _ IH]; [done|]. cbn. by rewrite E2, E4, E5, IH.
  Qed.

  (* ---------------- once, and not half ---------------- *)
  (** An existing directory is left alone, whatever is in it. *)
  Theorem C87_once sp d : d_dir d = true -> init sp d = (d, Err).
  Proof. intros H. unfold GenesisModel.init. by rewrite H. Qed.
  (** run needs a directory and changes nothing else. *)
  Theorem C87_run_needs d b : GenesisModel.run d = Ok b -> d_dir d = true /\ d_latest d = Some (bt_block b) /\ d_proof d = Some (bt_proof b) /\ d_state d <> None.
  Proof.
    unfold GenesisModel.run. destruct (d_dir d); [|done]. destruct (d_latest d) as [l|]; [|done]. destruct (d_state d) as [s|]; [|done]. cbn [negb].
    destruct (metadata_by_block (xs_meta s) _) as [md| |]; [|done..]. destruct (d_proof d) as [p|]; [|done]. intros E. by injection E as <-.
  Qed.
  (** A stop of init at any point leaves nothing, the complete directory, or one that neither init nor run ever accepts. *)
  Theorem C87_interrupted sp k : usable address_of sp ->
    let d := init_cut k sp no_disk in
    d = no_disk \/ d = (init sp no_disk).1 \/ (GenesisModel.run d = Err /\ forall sp', init sp' d = (d, Err)).
  Proof.
    intros U. destruct (init_writes_ok _ U) as (vs & s & _ & _ & _ & _ & _ & E). unfold GenesisModel.init_cut, GenesisModel.init. cbn [d_dir no_disk]. rewrite E.
    do 7 (destruct k as [|k]; [try (by left); cbn; auto; right; right; by split|]). cbn. auto.
  Qed.
  Lemma cut2 sp : usable address_of sp -> init_cut 2 sp no_disk = Disk true None None None None.
  Proof.
    intros U. destruct (init_writes_ok _ U) as (vs & s & _ & _ & _ & _ & _ & E). unfold GenesisModel.init_cut. cbn [d_dir no_disk]. by rewrite E.
  Qed.
  (** A chain spec that init refuses leaves such a directory too. *)
  Theorem C87_refused sp : ~ usable address_of sp ->
    (init sp no_disk).2 <> Ok tt /\ let d := (init sp no_disk).1 in GenesisModel.run d = Err /\ forall sp', init sp' d = (d, Err).
  Proof.
    intros U. split; [by rewrite C87_init|]. assert (D : exists r, init sp no_disk = (Disk true None None None None, r)).
    { assert (W : (init_writes sp).1 = [WDir] \/ (init_writes sp).1 = [WDir; WTries] \/ (init_writes sp).2 = Ok tt).
      { unfold GenesisModel.init_writes. destruct (metadata_01 address_of sp) as [[md0 md1]| |]; [|auto..].
        destruct (system_init _ _ _ _ _) as [s| |]; [|auto..]. destruct (exec_block _ _ _ _ _ _ _ _ _ _) as [[[s' g] r]| |]; auto. }
      unfold GenesisModel.init. cbn [d_dir no_disk]. destruct W as [W|[W|W]]; [rewrite W; by eexists..|].
      destruct U. apply C87_init. unfold GenesisModel.init. by cbn [d_dir no_disk snd]. }
    destruct D as (r & ->). by split.
  Qed.

  (** start reads the same hardfork info from the state that the running node had after the block. *)
  Theorem C87_restart s txs vals s' g rs : c_number (xs_ctx s) <> 0 ->
    exec_block keccak meta_abi hdr_hash hdr_enc ckb_abi image_abi evm s txs vals = Ok (s', g, rs) ->
    xs_hf s' = hardfork_info (xs_meta s') (c_number (xs_ctx s)).
  Proof.
    intros Nz. unfold exec_block. destruct (contract_limit s) as [limit| |]; [|done..].
    destruct (exec_loop _ _ _ _ _ _ _ _ _ _ _ _) as [[[[s1 rs1] g1] fee]| |]; [|done..].
    rewrite (proj2 (N.eqb_neq _ _) Nz). destruct (allocate _ _ _) as [l| |]; [|done..]. destruct (credit _ _) as [m| |]; [|done..].
    unfold meta_after_block. rewrite (proj2 (N.eqb_neq _ _) Nz).
    set (m1 := match c_extra _ with [] => _ | _ => _ end). destruct (update_propose_count m1 _ _) as [m2| |] eqn:U; [|done..].
    set (s3 := XState _ _ _ _ _ _ _). intros E. injection E as <- _ _.
    destruct (touch_frame s3 s3 METADATA) as (_ & _ & _ & T4 & _ & T6). unfold apply_ops. cbn [fold_left set_logs xs_meta xs_hf]. rewrite T4, T6.
    unfold s3. cbn [xs_hf xs_meta]. unfold hardfork_info.
    assert (Hf : mt_hardfork m2 = mt_hardfork m1); [|by rewrite Hf]. revert U. unfold update_propose_count.
    destruct (get_epoch_number _ _); [|done]. destruct (get_metadata_inner _ _) as [i|]; [|done]. destruct (bump _ _); [|done..]. intros E. by injection E as <-.
  Qed.

  (** The contract size limit of the chain spec is not what contracts are held to, even if Andromeda is on from block 0. *)
  Theorem C87_limit sp d b : init sp no_disk = (d, Ok tt) -> GenesisModel.run d = Ok b -> exists s, d_state d = Some s /\
    contract_limit (XState (xs_acc s) (xs_code s) (xs_logs s) (xs_ctx s) (xs_meta s) (xs_cells s) (bt_hardfork b)) = Ok 0x6000.
  Proof.
    intros H _. destruct (init_ok _ _ H) as (vs & s & _ & _ & _ & M & _ & _ & ->). exists s. split; [done|].
    unfold contract_limit. cbn [xs_hf xs_meta]. rewrite M. by destruct (enabled ANDROMEDA (bt_hardfork b)).
  Qed.
End Props.

(* ---------------- a chain spec, and what is false ---------------- *)
Definition K1 : bytes := repeat 2 33.
Definition A1 : bytes := repeat 7 20.
Definition ex_addr (k : bytes) : option bytes := if beqb k K1 then Some A1 else None.
Definition ex_cfg : config := Config_ (Config0_ 30000000 3000 15 10 10 10 20000 1024) 0x8000.
Definition ex_spec : spec :=
  Spec_ 1000 [HAndromeda] 1337 1098411886 [(repeat 1 20, 5); (repeat 3 20, 6); (repeat 1 20, 9); (METADATA, 4)] 1 100 0 [SVal [1] K1 1 2] ex_cfg.
Definition no_evm : xstate -> N -> stx -> evm_out := fun _ _ _ => EvmOut (XSucceed 0) [] 0 0 [] [].
Notation ex_init := (GenesisModel.init (fun _ => zero32) (fun _ => None) (fun _ : unit => []) (fun _ => []) (fun _ => None) (fun _ => None) no_evm (fun _ => zero32) ex_addr).
Example C87_ex : usable ex_addr ex_spec /\ exists d, ex_init ex_spec no_disk = (d, Ok tt) /\
  exists s, d_state d = Some s /\ xs_acc s !! repeat 1 20 = Some (Acc 0 9 ∅ NIL_CODE) /\ xs_acc s !! METADATA = Some (Acc 0 4 ∅ NIL_CODE) /\
  xs_acc s !! repeat 9 20 = None.
Proof.
  assert (U : usable ex_addr ex_spec) by (repeat split; try (vm_compute; reflexivity); constructor; [discriminate|constructor]).
  split; [done|]. pose proof (proj2 (C87_init (fun _ => zero32) (fun _ => None) (fun _ : unit => []) (fun _ => []) (fun _ => None) (fun _ => None) no_evm (fun _ => zero32) ex_addr ex_spec) U) as E.
  destruct (ex_init ex_spec no_disk) as [d r] eqn:I. cbn in E. subst r. exists d. split; [done|].
  destruct (C87_state _ _ _ _ _ _ _ _ _ _ _ I) as (s & b & Es & _ & _ & A & _). exists s. split; [done|].
  split; [apply A; vm_compute; reflexivity|]. split; [apply A; vm_compute; reflexivity|]. apply A; [vm_compute; reflexivity|].
  intros [X|[X|X]]; discriminate X.
Qed.

(** The limit of the chain spec is 0x8000 with Andromeda on; contracts are held to 0x6000. *)
Theorem C87_limit_refuted : exists sp d b s, ex_init sp no_disk = (d, Ok tt) /\ GenesisModel.run d = Ok b /\ d_state d = Some s /\
  bt_hardfork b = ANDROMEDA /\ cf_max_contract (sp_config sp) = 0x8000 /\
  contract_limit (XState (xs_acc s) (xs_code s) (xs_logs s) (xs_ctx s) (xs_meta s) (xs_cells s) (bt_hardfork b)) = Ok 0x6000.
Proof.
  destruct C87_ex as (_ & d & I & _). destruct (C87_run _ _ _ _ _ _ _ _ _ _ _ I) as (b & R & _ & _ & Hf & _).
  destruct (C87_limit _ _ _ _ _ _ _ _ _ _ _ _ I R) as (s & Es & L). exists ex_spec, d, b, s. repeat (split; [done|]). done.
Qed.
(** An init that was interrupted cannot be repeated or run. *)
Theorem C87_interrupted_refuted : exists k, let d := GenesisModel.init_cut (fun _ => zero32) (fun _ => None) (fun _ : unit => []) (fun _ => []) (fun _ => None) (fun _ => None) no_evm (fun _ => zero32) ex_addr k ex_spec no_disk in
  d <> no_disk /\ GenesisModel.run d = Err /\ ex_init ex_spec d = (d, Err).
Proof. exists 2%nat. cbv zeta. rewrite cut2 by apply C87_ex. split; [discriminate|]. split; reflexivity. Qed.
(** A chain spec with another first epoch is refused with an error, and then the right one is refused as well. *)
Theorem C87_refused_refuted : exists sp d, ex_init sp no_disk = (d, Err) /\ ~ usable ex_addr sp /\ usable ex_addr ex_spec /\ ex_init ex_spec d = (d, Err) /\ GenesisModel.run d = Err.
Proof.
  exists (Spec_ 1000 [HAndromeda] 1337 1098411886 [] 1 100 1 [SVal [1] K1 1 2] ex_cfg), (Disk true None None None None).
  split; [|split; [intros (E & _); discriminate E|]; split; [apply C87_ex|]; split; reflexivity].
  unfold GenesisModel.init. cbn [d_dir no_disk]. unfold GenesisModel.init_writes. change (metadata_01 _ _) with
    (Ok (Metadata_ (Inner_ 1 100 1 [Val_ [1] K1 A1 1 2] []) ex_cfg, Metadata_ (Inner_ 101 200 2 [Val_ [1] K1 A1 1 2] []) ex_cfg)).
  cbv iota beta. rewrite system_init_err by reflexivity. reflexivity.
Qed.
(** A chain spec without validators is taken. *)
Theorem C87_no_validators_refuted : exists sp d b, ex_init sp no_disk = (d, Ok tt) /\ GenesisModel.run d = Ok b /\ bt_validators b = [].
Proof.
  set (sp := Spec_ 1000 [HAndromeda] 1337 1098411886 [] 1 100 0 [] ex_cfg).
  assert (U : usable ex_addr sp) by (repeat split; try (vm_compute; reflexivity); constructor).
  pose proof (proj2 (C87_init (fun _ => zero32) (fun _ => None) (fun _ : unit => []) (fun _ => []) (fun _ => None) (fun _ => None) no_evm (fun _ => zero32) ex_addr sp) U) as E.
  destruct (ex_init sp no_disk) as [d r] eqn:I. cbn in E. subst r. destruct (C87_run _ _ _ _ _ _ _ _ _ _ _ I) as (b & R & _ & _ & _ & V & _).
  exists sp, d, b. split; [exact I|]. split; [exact R|exact V].
Qed.

Print Assumptions C87_init.
Print Assumptions C87_state.
Print Assumptions C87_metadata.
Print Assumptions C87_run.
Print Assumptions C87_once.
Print Assumptions C87_run_needs.
Print Assumptions C87_interrupted.
Print Assumptions C87_refused.
Print Assumptions C87_restart.
Print Assumptions C87_limit.
Print Assumptions C87_limit_refuted.
Print Assumptions C87_interrupted_refuted.
Print Assumptions C87_refused_refuted.
Print Assumptions C87_no_validators_refuted.
