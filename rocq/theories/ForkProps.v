(** C97: what a peer that answers wrongly can do to a node that synchronises. *)
From Verif Require Import Bytes BytesProofs Rlp TxModel WalModel StorageModel StorageProofs StorageProps BlockModel BlockProofs BlockProps ConsensusModel ConsensusProofs ConsensusProps ConsensusProps2 SyncModel SyncProps.
From stdpp Require Import base gmap list.
From Coq Require Import Lia.
Local Open Scope N_scope.

(* ------------------------------------------------------------------------ *)
(** * Specification *)
(** the same block except for the results of executing it (state root, receipts root, bloom, gas used), its base fee and its chain id *)
Record alike (b b' : BlockModel.block) : Prop := {
  al_hashes : b_tx_hashes b' = b_tx_hashes b;
  al_version : h_version (BlockModel.b_header b') = h_version (BlockModel.b_header b);
  al_prev : h_prev_hash (BlockModel.b_header b') = h_prev_hash (BlockModel.b_header b);
  al_proposer : h_proposer (BlockModel.b_header b') = h_proposer (BlockModel.b_header b);
  al_txs : h_transactions_root (BlockModel.b_header b') = h_transactions_root (BlockModel.b_header b);
  al_signed : h_signed_txs_hash (BlockModel.b_header b') = h_signed_txs_hash (BlockModel.b_header b);
  al_time : h_timestamp (BlockModel.b_header b') = h_timestamp (BlockModel.b_header b);
  al_number : BlockModel.h_number (BlockModel.b_header b') = BlockModel.h_number (BlockModel.b_header b);
  al_limit : h_gas_limit (BlockModel.b_header b') = h_gas_limit (BlockModel.b_header b);
  al_extra : h_extra_data (BlockModel.b_header b') = h_extra_data (BlockModel.b_header b);
  al_proof : h_proof (BlockModel.b_header b') = h_proof (BlockModel.b_header b);
  al_calls : h_call_system_script_count (BlockModel.b_header b') = h_call_system_script_count (BlockModel.b_header b) }.
(** a block with another bloom and another amount of gas *)
Definition relabelled (b : BlockModel.block) (bloom : bytes) (gas : N) : BlockModel.block :=
  let h := BlockModel.b_header b in
  Block_ (Header_ (h_version h) (h_prev_hash h) (h_proposer h) (h_state_root h) (h_transactions_root h) (h_signed_txs_hash h) (h_receipts_root h)
    bloom (h_timestamp h) (BlockModel.h_number h) gas (h_gas_limit h) (h_extra_data h) (h_base_fee h) (h_proof h)
    (h_call_system_script_count h) (h_chain_id h)) (b_tx_hashes b).

Section Props.
  Variable P : params.
  Notation num b := (BlockModel.h_number (BlockModel.b_header b)).
  Notation at_ h m := (block_at (I P) h m : option BlockModel.block).
  Notation hdr C m := (BlockModel.b_header (hb P C m)).
  Notation root C m := (h_state_root (BlockModel.b_header (hb P C m))).

  (** the answer with another block in it *)
  Definition with_block (i : fetch_input P) (b : BlockModel.block) : fetch_input P :=
    FetchIn P b (fi_mem P i) (fi_remote P i) (fi_chunk P i) (fi_proof P i).

  (* ---------------------------------------------------------------------- *)
  (** * What a wrong answer cannot change *)
  Lemma rich_block_is number i b txs : get_rich_block P number i = Ok (b, txs) -> b = fi_block P i.
  Proof using.
    unfold get_rich_block. destruct (negb _); [done|]. destruct (split_mem _ _ _ _ _ _ _) as [[res mi] ml]. case_bool_decide; [done|].
    destruct (pull _ _ _ _ _) as [[res' mi']| |]; [|done|done]. case_bool_decide; [|done]. by intros [= <- _].
  Qed.
  (** Two answers for one height that a node accepts, under proofs of one proposal: the blocks carry the same transactions and differ at most in
      the results of executing them, the base fee and the chain id; when the latter two agree, so do the roots. *)
  Theorem C97_bound_partial : forall n cur agent i i' b b' txs txs' r r',
    sync_plan P n cur agent i = Ok (b, txs, r) -> sync_plan P n cur agent i' = Ok (b', txs', r') ->
    pf_block_hash (fi_proof P i) = pf_block_hash (fi_proof P i') ->
    (forall prev, block_by_number P (store P n) cur = Ok prev ->
       let p := with_state_root (BlockModel.b_header b) (h_state_root (BlockModel.b_header prev)) (b_tx_hashes b) in
       let p' := with_state_root (BlockModel.b_header b') (h_state_root (BlockModel.b_header prev)) (b_tx_hashes b') in
       wf_proposal p /\ wf_proposal p' /\ len (enc_proposal p) < 2 ^ 64 /\ len (enc_proposal p') < 2 ^ 64 /\
       (digest P (enc_proposal p) = digest P (enc_proposal p') -> enc_proposal p = enc_proposal p')) ->
    (stxs_digest P txs = stxs_digest P txs' -> txs = txs') ->
    alike b b' /\ txs' = txs /\
    (h_base_fee (BlockModel.b_header b') = h_base_fee (BlockModel.b_header b) -> h_chain_id (BlockModel.b_header b') = h_chain_id (BlockModel.b_header b) ->
     r' = r /\ h_state_root (BlockModel.b_header b') = h_state_root (BlockModel.b_header b) /\
     h_receipts_root (BlockModel.b_header b') = h_receipts_root (BlockModel.b_header b)).
  Proof using.
    intros n cur ag i i' b b' txs txs' r r' H H' PH CR SD.
    destruct (C39_executed P _ _ _ _ _ _ _ H) as (NB & V & X & S1 & S2). destruct (C39_executed P _ _ _ _ _ _ _ H') as (NB' & V' & X' & S1' & S2').
    apply (C39_verified P) in V as (_ & prev & B & _ & _ & Q & _ & _ & D). apply (C39_verified P) in V' as (_ & prev' & B' & _ & _ & Q' & _ & _ & D').
    rewrite NB in B. rewrite NB' in B'. replace (cur + 1 - 1) with cur in B, B' by lia. rewrite B in B'. injection B' as <-.
    destruct (CR prev B) as (W & W' & L & L' & CF). rewrite Q, Q' in PH. apply CF in PH. clear CR CF Q Q'.
    pose proof (proposal_decode _ 0 W L) as E. pose proof (proposal_decode _ 0 W' L') as E'. rewrite PH, E' in E. cbn in E.
    injection E as E1 E2 E3 E5 E6 E7 E8 E9 E10 E11 E12 E13.
    assert (TX : txs' = txs) by (symmetry; apply SD; congruence). subst txs'.
    split; [split; congruence|]. split; [done|]. intros BF CI.
    assert (RR : r' = r); [|subst r'; split; [done|split; congruence]].
    assert (PE : forall s, with_state_root (BlockModel.b_header b') s (b_tx_hashes b') = with_state_root (BlockModel.b_header b) s (b_tx_hashes b)).
    { intros s. unfold with_state_root. by rewrite E1, E2, E3, E5, E6, E7, E8, E9, E10, BF, E11, CI, E12, E13. }
    rewrite PE in X'. rewrite X in X'. by injection X' as ->.
  Qed.

  (* ---------------------------------------------------------------------- *)
  (** * What a wrong answer can change *)
  (** Whatever block a node accepts, it accepts with any other bloom and any other amount of gas used. *)
  Theorem C97_relabelled : forall n cur agent i b txs r bloom gas, sync_plan P n cur agent i = Ok (b, txs, r) ->
    sync_plan P n cur agent (with_block i (relabelled b bloom gas)) = Ok (relabelled b bloom gas, txs, r).
  Proof using.
    intros n cur ag i b txs r bl g. unfold sync_plan. destruct (get_rich_block P (cur + 1) i) as [[b0 t0]| |] eqn:G; [|done|done].
    pose proof (rich_block_is _ _ _ _ G) as E. subst b0.
    destruct (verify_block P (store P n) (st_root (nd_status P n)) (fi_block P i) t0 (fi_proof P i)) as [[]| |] eqn:V; [|done|done].
    destruct (plan_sync P (store P n) (st_root ag) (st_root (nd_status P n)) (fi_block P i) t0) as [x| |] eqn:PS; [|done|done]. intros [= <- -> ->].
    assert (G' : get_rich_block P (cur + 1) (with_block i (relabelled (fi_block P i) bl g)) = Ok (relabelled (fi_block P i) bl g, txs)).
    { revert G. unfold get_rich_block. cbn [with_block fi_block fi_mem fi_chunk fi_remote relabelled b_tx_hashes BlockModel.b_header BlockModel.h_number].
      destruct (negb _); [done|]. destruct (split_mem _ _ _ _ _ _ _) as [[res mi] ml]. case_bool_decide; [done|].
      destruct (pull _ _ _ _ _) as [[res' mi']| |]; [|done|done]. case_bool_decide; [|done]. by intros [= <-]. }
    rewrite G'.
    change (verify_block P (store P n) (st_root (nd_status P n)) (relabelled (fi_block P i) bl g) txs (fi_proof P (with_block i (relabelled (fi_block P i) bl g))))
      with (verify_block P (store P n) (st_root (nd_status P n)) (fi_block P i) txs (fi_proof P i)). rewrite V.
    change (plan_sync P (store P n) (st_root ag) (st_root (nd_status P n)) (relabelled (fi_block P i) bl g) txs)
      with (plan_sync P (store P n) (st_root ag) (st_root (nd_status P n)) (fi_block P i) txs). by rewrite PS.
  Qed.

  (* ---------------------------------------------------------------------- *)
  (** * A node on a block that is not the chain's *)
  (** Answers for height [m + 1] name [x] as parent. *)
  Definition names_parent (m : N) (x : bytes) (e : event P) : Prop :=
    match e with
    | VTask _ _ (Some i) => num (fi_block P i) = m + 1 -> h_prev_hash (BlockModel.b_header (fi_block P i)) = x
    | VCache _ e => wf_event (I P) e
    | VCommit _ _ _ _ _ _ => False
    | _ => True
    end.
  (** A node that follows the chain by synchronising: proposals, checks, announcements, fetches and reads in any order, and crashes with
      restarts at any point. *)
  Inductive follows (m : N) (x : bytes) : node P -> node P -> Prop :=
  | f_here n : follows m x n n
  | f_step n n' e : follows m x n n' -> names_parent m x e -> follows m x n (step P n' e)
  | f_crash n n' n2 e j wal : follows m x n n' -> names_parent m x e -> boot P (crashed_store P n' e j) wal = Ok n2 -> follows m x n n2.

  Record halted (m : N) (b : BlockModel.block) (n : node P) : Prop := {
    hl_wf : Forall (wf_event (I P)) (nd_store P n);
    hl_stable : bstable (I P) (nd_store P n);
    hl_at : at_ (nd_store P n) m = Some b;
    hl_latest : exists a, latest_at (I P) (nd_store P n) = Some a /\ num a = m;
    hl_last : st_last (nd_status P n) = m;
    hl_small : m < 2 ^ 64;
    hl_shape : exists h, shape P h n;
    hl_front : forall r cur target agent, nd_tasks P n = [TRun r cur target agent] -> cur = m }.
  Lemma halted_plan m b x n agent i : halted m b n -> block_hash P b <> x -> (num (fi_block P i) = m + 1 -> h_prev_hash (BlockModel.b_header (fi_block P i)) = x) ->
    forall v, sync_plan P n m agent i <> Ok v.
  Proof using.
    intros HL NE NP [[b' txs] r] SP. destruct (C39_executed P _ _ _ _ _ _ _ SP) as (NB & V & _). apply (C39_verified P) in V as (_ & prev & B & PH & _).
    rewrite NB in B. replace (m + 1 - 1) with m in B by lia.
    unfold block_by_number, store in B. rewrite (srun_get_block (I P) (nd_store P n) m (hl_wf _ _ _ HL) (hl_stable _ _ _ HL) (hl_small _ _ _ HL)) in B.
    rewrite (hl_at _ _ _ HL) in B. injection B as <-.
    assert (EB : b' = fi_block P i).
    { revert SP. unfold sync_plan. destruct (get_rich_block P (m + 1) i) as [[b0 t0]| |] eqn:G; [|done|done]. apply rich_block_is in G. subst b0.
      destruct (verify_block _ _ _ _ _ _); [|done|done]. destruct (plan_sync _ _ _ _ _ _); [|done|done]. by intros [= <- _ _]. }
    subst b'. specialize (NP NB). congruence.
  Qed.
  Lemma halted_same m b n n' : halted m b n -> nd_store P n' = nd_store P n -> st_last (nd_status P n') = m -> (exists h, shape P h n') ->
    (forall r cur target agent, nd_tasks P n' = [TRun r cur target agent] -> cur = m) -> halted m b n'.
  Proof using. intros [A B C D E F G H] ES EL SH FR. split; rewrite ?ES; done. Qed.
  Lemma halted_step m b x n e : halted m b n -> block_hash P b <> x -> names_parent m x e -> halted m b (step P n e).
  Proof using.
    intros HL NE NP. pose proof (hl_shape _ _ _ HL) as [hh SH]. pose proof (shape_step P hh n e SH) as SH'. pose proof (hl_last _ _ _ HL) as LL.
    pose proof (hl_front _ _ _ HL) as FR.
    assert (CA : forall e, cache_event P e = true -> wf_event (I P) e -> halted m b (set_store P n (e :: nd_store P n))).
    { intros e' CE WE. destruct HL as [A B C D E F G H]. split; try done; cbn [nd_store set_store].
      - by apply Forall_cons.
      - split; [|done]. intros k y. by destruct e'.
      - by rewrite (cache_at P e').
      - destruct D as (a & D & Da). exists a. split; [|done]. rewrite <- D. by destruct e'. }
    assert (Q : forall n', (exists h, shape P h n') ->
      (nd_store P n' = nd_store P n /\ st_last (nd_status P n') = m /\ forall r cur target agent, nd_tasks P n' = [TRun r cur target agent] -> cur = m) -> halted m b n').
    { intros n' S (E1 & E2 & E3). by apply (halted_same m b n). }
    assert (QN : nd_store P n = nd_store P n /\ st_last (nd_status P n) = m /\ forall r cur target agent, nd_tasks P n = [TRun r cur target agent] -> cur = m) by done.
    destruct e as [next i|next hash p i|st c p pf f|r|k i|e]; cbn [step] in *.
    - apply Q; [by eexists|]. clear SH'. unfold get_proposal. destruct (_ <=? _); [done|]. by destruct (negb _).
    - apply Q; [by eexists|]. clear SH'. unfold check_block. destruct (_ <=? _); [done|]. destruct (negb _); [done|]. destruct (negb _); [done|].
      destruct (if bool_decide _ then _ else _); [|done|done]. by destruct (ci_full _ _ _).
    - destruct NP.
    - apply Q; [by eexists|]. clear SH'. unfold announce. destruct (nd_syncing P n) eqn:SY; [done|]. destruct (_ =? 0); [done|]. destruct (_ <=? _); [done|].
      split; [done|]. split; [done|]. destruct SH as [(_ & _ & T)|(F & _)]; [|congruence]. cbn. rewrite T. cbn. by destruct (_ =? _).
    - apply Q; [by eexists|]. clear SH'. unfold task_step. destruct SH as [(_ & _ & T)|(_ & t & r & T & _ & X)]; rewrite T; [by rewrite lookup_nil|].
      destruct k as [|k]; [cbn [lookup list_lookup]|done].
      assert (FI : forall n' rel, nd_store P n' = nd_store P n -> st_last (nd_status P n') = m -> nd_tasks P n' = [t] ->
        nd_store P (finish P n' 0 rel) = nd_store P n /\ st_last (nd_status P (finish P n' 0 rel)) = m /\
        forall r cur target agent, nd_tasks P (finish P n' 0 rel) = [TRun r cur target agent] -> cur = m).
      { intros n' rel F1 F2 F3. unfold finish. cbn. rewrite F3. cbn. done. }
      destruct t as [r'|r'|r' cu ta ag].
      + destruct (_ =? _); [by apply FI|]. split; [done|]. by split.
      + destruct (nd_commit_lock P n); [by apply FI|]. destruct (_ <=? _); [by apply FI|]. destruct (_ <=? _); [by apply FI|].
        split; [done|]. split; [done|]. cbn. intros ? ? ? ? [= _ <- _ _]. done.
      + pose proof (FR _ _ _ _ T) as ->. destruct X as (-> & _ & _ & _ & _ & AG & _).
        destruct (_ <? _); [|by apply FI]. destruct i as [i|]; [|by apply FI]. destruct (sync_plan P n m ag i) as [v| |] eqn:SP; [|by apply FI|by apply FI].
        exfalso. exact (halted_plan m b x n ag i HL NE NP v SP).
    - destruct (cache_event P e) eqn:CE; [by apply CA|done].
  Qed.
  Lemma halted_boot m b x n e j wal n' : halted m b n -> block_hash P b <> x -> names_parent m x e -> boot P (crashed_store P n e j) wal = Ok n' -> halted m b n'.
  Proof using.
    intros HL NE NP BO.
    assert (CS : crashed_store P n e j = nd_store P n).
    { destruct e as [next i|next hash p i|st c p pf f|r|k i|e]; try done; cbn [crashed_store].
      destruct i as [i|]; [|done]. destruct (nd_tasks P n !! k) as [t|] eqn:T; [|done]. destruct t as [|r|r cu ta ag]; [done|done|]. destruct (_ <? _); [|done].
      assert (nd_tasks P n = [TRun r cu ta ag]) as TE.
      { destruct (hl_shape _ _ _ HL) as [hh [(_ & _ & E)|(_ & t & r' & E & _)]]; rewrite E in T; [by rewrite lookup_nil in T|].
        destruct k as [|k]; [|by rewrite lookup_cons_ne_0, lookup_nil in T]. by injection T as ->. }
      pose proof (hl_front _ _ _ HL _ _ _ _ TE) as ->. destruct (sync_plan P n m ag i) as [v| |] eqn:SP; [|done|done].
      exfalso. exact (halted_plan m b x n ag i HL NE NP v SP). }
    rewrite CS in BO. unfold boot in BO. rewrite (status_of_store_spec P _ (hl_wf _ _ _ HL)) in BO. destruct (hl_latest _ _ _ HL) as (a & LA & NA).
    rewrite LA in BO. destruct (proof_at _ _) as [pf|]; [|done]. injection BO as <-. destruct HL as [A B C D E F G H]. split; cbn [nd_store nd_status nd_tasks st_last]; try done.
    - by apply Forall_cons.
    - exists []. by left.
  Qed.

  (** It stays where it is, whatever it is told and however often it is restarted, as long as the answers for the next height are blocks on top of
      another block than its own. *)
  Theorem C97_halted : forall m x b n n', start P n -> st_last (nd_status P n) = m -> at_ (nd_store P n) m = Some b ->
    (exists a, latest_at (I P) (nd_store P n) = Some a /\ num a = m) -> block_hash P b <> x -> follows m x n n' ->
    st_last (nd_status P n') = m /\ block_by_number P (store P n') m = Ok b.
  Proof using.
    intros m x b n n' [ID G] L A LA NE F.
    assert (H0 : halted m b n).
    { pose proof ID as (_ & _ & T). split; [apply G|apply G|done|done|done| |exists []; by left|by rewrite T].
      destruct (gd_tip _ _ G) as (_ & TL & _). unfold front in TL. rewrite T, L in TL. done. }
    assert (HL : halted m b n').
    { clear ID G L A LA. induction F as [n|n n' e F IH NP|n n' n2 e j wal F IH NP B]; [done| |].
      - exact (halted_step m b x n' e (IH H0) NE NP).
      - exact (halted_boot m b x n' e j wal n2 (IH H0) NE NP B). }
    split; [apply (hl_last _ _ _ HL)|]. unfold block_by_number, store.
    rewrite (srun_get_block (I P) (nd_store P n') m (hl_wf _ _ _ HL) (hl_stable _ _ _ HL) (hl_small _ _ _ HL)). by rewrite (hl_at _ _ _ HL).
  Qed.

  (** ** The attack: one wrong answer *)
  Variables (C : hchain P) (top : N).
  Definition attack (c : N) (i : fetch_input P) (bloom : bytes) (gas : N) : list (event P) :=
    [VAnnounce P (c + 2); VTask P 0 None; VTask P 0 (Some (with_block i (relabelled (hb P C (c + 1)) bloom gas))); VTask P 0 None].
  (** A node at height [c] of an honest chain announces that it can be helped; [i] is the honest answer for height [c + 1]. The same answer with
      another bloom or gas leaves it at height [c + 1] for good, although everybody serves it the chain. *)
  Theorem C97_one_answer : forall n c i bloom gas, typed P -> exec_ignores_claimed_root P -> honest P C top -> synced P C n c -> c + 2 <= top ->
    fi_block P i = hb P C (c + 1) -> fi_proof P i = hp P C (c + 1) -> fi_chunk P i <> O ->
    (forall x u t, fi_mem P i x = Some u -> t ∈ ht P C (c + 1) -> stx_hash P t = x -> u = t) ->
    (forall q, NoDup q -> (forall x, x ∈ q -> x ∈ b_tx_hashes (hb P C (c + 1))) -> fi_remote P i q = Ok (txs_of P (ht P C (c + 1)) q)) ->
    block_hash P (relabelled (hb P C (c + 1)) bloom gas) <> block_hash P (hb P C (c + 1)) ->
    let n1 := forward P n (attack c i bloom gas) in
    idle P n1 /\ st_last (nd_status P n1) = c + 1 /\
    forall n', follows (c + 1) (block_hash P (hb P C (c + 1))) n1 n' ->
      st_last (nd_status P n') = c + 1 /\ block_by_number P (store P n') (c + 1) = Ok (relabelled (hb P C (c + 1)) bloom gas).
  Proof using.
    intros n c i bl g TY EX HC ((SY & LK & TK) & HO & SL & SR & SH) CT FB FP CK MEM RM NE. pose proof HC as (H0 & HT & HL).
    set (b' := relabelled (hb P C (c + 1)) bl g) in *.
    assert (NB : num b' = c + 1) by (apply (lk_num P C (c + 1)), HL; lia).
    assert (PL : forall n2 agent, nd_store P n2 = nd_store P n -> st_root agent = root C c ->
      sync_plan P n2 c agent (with_block i b') = Ok (b', ht P C (c + 1), hr P C (c + 1))).
    { intros n2 agent ES AR. apply C97_relabelled. apply (C76_step P C top); try done; [by rewrite ES|lia]. }
    destruct (good_sync P (nd_store P n) b' (ht P C (c + 1)) (hr P C (c + 1)) TY (ho_wf _ _ _ _ HO) (ho_stable _ _ _ _ HO)) as (W & S & A).
    { rewrite NB. lia. }
    { rewrite NB. apply (ho_none _ _ _ _ HO). lia. }
    set (st' := writes P (nd_store P n) (sync_writes P b' (ht P C (c + 1)) (hr P C (c + 1)))) in *.
    set (ag := Status_ (block_hash P b') (num b') (e_state_root (hr P C (c + 1))) (hp P C (c + 1))).
    assert (E : forward P n (attack c i bl g) = Node P ag st' (nd_wal P n) (nd_exempt P n) false false []).
    { unfold attack. fold b'. rewrite !forward_cons. change (forward P ?x []) with x.
      assert (S1 : step P n (VAnnounce P (c + 2)) = set_sync P n true false [TLock (c + 2)]).
      { cbn [step]. unfold announce. rewrite SY, SL, LK, TK. destruct (N.eqb_spec (c + 2) 0); [lia|]. destruct (N.leb_spec (c + 2) c); [lia|].
        destruct (N.eqb_spec c (c + 2 - 1)); [lia|]. done. }
      rewrite S1. clear S1.
      assert (S2 : step P (set_sync P n true false [TLock (c + 2)]) (VTask P 0 None) = set_sync P n true true [TRun (c + 2) c (c + 2) (nd_status P n)]).
      { cbn [step]. unfold task_step. cbn. rewrite SL. destruct (N.leb_spec (c + 2) c); [lia|]. unfold ONCE_SYNC_BLOCK_LIMIT, U64. destruct (N.leb_spec (2 ^ 64) (c + 50)); [lia|].
        destruct (N.ltb_spec (c + 2) (c + 50)); [|lia]. done. }
      rewrite S2. clear S2.
      set (n2 := set_sync P n true true _).
      assert (S3 : step P n2 (VTask P 0 (Some (with_block i b'))) = set_sync P (set_store P n2 st') true true [TRun (c + 2) (c + 1) (c + 2) ag]).
      { cbn [step]. unfold task_step. cbn [nd_tasks n2 set_sync lookup list_lookup]. destruct (N.ltb_spec c (c + 2)); [|lia].
        rewrite (PL n2 (nd_status P n) eq_refl SR). unfold ag. rewrite <- FP. done. }
      rewrite S3. clear S3. cbn [step]. unfold task_step. cbn [nd_tasks set_sync lookup list_lookup]. destruct (c + 1 <? c + 2); done. }
    rewrite E. cbn zeta. split; [done|]. split; [exact NB|]. intros n' F.
    set (n1 := Node P ag st' (nd_wal P n) (nd_exempt P n) false false []) in *.
    apply (C97_halted (c + 1) (block_hash P (hb P C (c + 1))) b' n1); try done.
    - split; [done|]. split; [exact W|exact S|]. unfold tip, front. cbn [nd_tasks nd_store n1 nd_status st_last st_prev_hash ag]. rewrite NB.
      split; [|split; [lia|]].
      + apply (extend_chain P (nd_store P n) _ c b'); [| |exists (hb P C c)|exact A].
        * split.
          -- intros m M. exists (hb P C m). split; [by apply (ho_blocks _ _ _ _ HO)|]. destruct (decide (m = 0)) as [->|]; [exact H0|]. apply (lk_num P C m), HL. lia.
          -- intros m M. by apply (ho_none _ _ _ _ HO).
          -- intros m y z M. rewrite (ho_blocks _ _ _ _ HO m), (ho_blocks _ _ _ _ HO (m - 1)) by lia. intros [= <-] [= <-]. apply (lk_prev P C m), HL. lia.
        * exact NB.
        * split; [apply (ho_blocks _ _ _ _ HO); lia|]. pose proof (lk_prev P C (c + 1) (HL (c + 1) ltac:(lia))) as LP. by replace (c + 1 - 1) with c in LP by lia.
      + exists b'. rewrite A. by rewrite decide_True.
    - rewrite A. by rewrite decide_True.
    - by exists b'.
  Qed.
End Props.

(* ------------------------------------------------------------------------ *)
(** * The small network of SyncProps *)
(** A fresh node gets block 1 with the gas set to 1 and stays at height 1, although the chain has a second block that it would otherwise fetch. *)
Theorem C97_off_chain_refuted : exists (n : node X) (i honest_i next : fetch_input X),
  synced X Y n 0 /\ honest X Y 2 /\
  fi_block X i = relabelled b1 (h_log_bloom (BlockModel.b_header b1)) 1 /\ i = with_block X honest_i (fi_block X i) /\
  st_last (nd_status X (forward X n [VAnnounce X 2; VTask X 0 None; VTask X 0 (Some honest_i); VTask X 0 (Some next); VTask X 0 None])) = 2 /\
  (let n1 := forward X n [VAnnounce X 2; VTask X 0 None; VTask X 0 (Some i); VTask X 0 None] in
   idle X n1 /\ st_last (nd_status X n1) = 1 /\ names_parent X 1 (block_hash X b1) (VTask X 0 (Some next)) /\
   forall n', follows X 1 (block_hash X b1) n1 n' -> st_last (nd_status X n') = 1).
Proof.
  set (bl := h_log_bloom (BlockModel.b_header b1)).
  exists x_start, (with_block X f1 (relabelled b1 bl 1)), f1, f2.
  split; [exact (proj1 Y_start)|]. split; [exact Y_honest|]. split; [reflexivity|]. split; [reflexivity|]. split; [vmr|].
  destruct (C97_one_answer X Y 2 x_start 0 f1 bl 1 X_typed (fun _ _ _ _ _ _ => eq_refl) Y_honest (proj1 Y_start)) as (A & B & D).
  - lia.
  - reflexivity.
  - reflexivity.
  - done.
  - done.
  - intros q ND Q. cbn in Q. cbn [fi_remote f1]. unfold x_full. f_equal. unfold txs_of. induction q as [|x q IH]; [done|].
    assert (E : x = be_fixed 32 41 \/ x = be_fixed 32 42).
    { assert (IN : x ∈ [be_fixed 32 41; be_fixed 32 42]) by (apply Q, elem_of_cons; by left). apply elem_of_cons in IN as [->|IN]; [by left|]. apply elem_of_list_singleton in IN as ->. by right. }
    cbn [map omap list_omap]. rewrite IH; [|by apply NoDup_cons in ND as [_ ND]|intros y Y0; apply Q, elem_of_cons; by right]. destruct E as [->| ->]; vm_compute; reflexivity.
  - intros F. apply beqb_eq in F. assert (G : beqb (block_hash X (relabelled b1 bl 1)) (block_hash X b1) = false) by vmr. change (hb X Y (0 + 1)) with b1 in F. congruence.
  - cbn zeta. split; [exact A|]. split; [exact B|]. split; [intros _; vmr|]. intros n' F. exact (proj1 (D n' F)).
Qed.

(** the hypotheses of [C97_bound_partial] for the honest and the relabelled answer *)
Example C97_bound_nontrivial : exists b b' txs r,
  let n := run X x_start [VTask X 0 None; VAnnounce X 2] in
  sync_plan X n 0 (nd_status X n) f1 = Ok (b, txs, r) /\ sync_plan X n 0 (nd_status X n) f1_forged = Ok (b', txs, r) /\ b <> b' /\
  forall prev, block_by_number X (store X n) 0 = Ok prev ->
    let p := with_state_root (BlockModel.b_header b) (h_state_root (BlockModel.b_header prev)) (b_tx_hashes b) in
    let p' := with_state_root (BlockModel.b_header b') (h_state_root (BlockModel.b_header prev)) (b_tx_hashes b') in
    wf_proposal p /\ wf_proposal p' /\ len (enc_proposal p) < 2 ^ 64 /\ len (enc_proposal p') < 2 ^ 64 /\ enc_proposal p = enc_proposal p'.
Proof.
  exists b1, b1_forged, [41; 42], (y_res 1). cbn zeta. split; [vmr|]. split; [vmr|]. split; [intros F; apply (f_equal (fun b => h_gas_used (BlockModel.b_header b))) in F; discriminate F|].
  intros prev B. assert (E : block_by_number X (store X (run X x_start [VTask X 0 None; VAnnounce X 2])) 0 = Ok x_genesis) by vmr. rewrite E in B. injection B as <-.
  assert (W : forall b, b = b1 \/ b = b1_forged -> wf_proposal (with_state_root (BlockModel.b_header b) (h_state_root (BlockModel.b_header x_genesis)) (b_tx_hashes b))).
  { intros b [->| ->]; unfold wf_proposal; wf_tac2; try (unfold wf_proof; wf_tac2). }
  split; [apply W; by left|]. split; [apply W; by right|]. split; [vm_compute; reflexivity|]. split; [vm_compute; reflexivity|vmr].
Qed.

Print Assumptions C97_bound_partial.
Print Assumptions C97_relabelled.
Print Assumptions C97_halted.
Print Assumptions C97_one_answer.
Print Assumptions C97_off_chain_refuted.
Print Assumptions C97_bound_nontrivial.
