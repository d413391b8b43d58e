(** C37, C38, C41, C42: quorums, the order of commits, the synchronisation lock and proposal timestamps. *)
From Verif Require Import Bytes BytesProofs Rlp TxModel WalModel StorageModel StorageProofs StorageProps BlockModel ConsensusModel ConsensusProofs.
From stdpp Require Import base gmap list.
From Coq Require Import Lia.
Local Open Scope N_scope.

Section Props.
  Variable P : params.
  Notation num b := (BlockModel.h_number (BlockModel.b_header b)).

  (* ---------------------------------------------------------------------- *)
  (** * C37 *)

  (** What is assumed of overlord::extract_voters: it selects positions of the list it is given. *)
  Definition extract_selects : Prop := forall l bm vs, extract P l bm = Some vs -> vs ⊆+ l.

  Lemma selects_nodup (l vs : list bytes) : vs ⊆+ l -> NoDup l -> NoDup vs.
  Proof using. intros S ND. destruct (submseteq_Permutation _ _ S) as [k PM]. rewrite PM in ND. by apply NoDup_app in ND as [? _]. Qed.

  (** A proof is accepted only with more than two thirds of the weight of the validators of its block's epoch,
      and only if the aggregated signature of exactly these validators over this vote is valid. *)
  Theorem C37_quorum : extract_selects -> forall s b pf, verify_proof P s b pf = Ok () -> num b <> 0 ->
    exists m (signers : list bytes), metadata_at P s (num b) = Ok m /\ m_start m <= num b <= m_end m /\ pf_number pf = num b /\
      agg_verify P (digest P (vote_bytes P (num b) (pf_round pf) (pf_block_hash pf)))
        (map v_bls (filter (fun v => v_pub v ∈ signers) (m_verifiers m))) (pf_signature pf) = true /\
      (NoDup (map v_pub (m_verifiers m)) ->
         NoDup signers /\ (forall x, x ∈ signers -> exists v, v ∈ m_verifiers m /\ v_pub v = x) /\
         2 * sumw (m_verifiers m) < 3 * wsum (fun v => bool_decide (v_pub v ∈ signers)) (m_verifiers m)).
  Proof using.
    intros EX s b pf. unfold verify_proof. intros H N0. destruct (N.eqb_spec (num b) 0) as [?|_]; [done|].
    destruct (N.eqb_spec (num b) (pf_number pf)) as [EN|]; [cbn [negb] in H|done].
    destruct (block_by_number _ _ _) as [prev| |]; [|done|done]. destruct (negb (beqb _ _)); [done|].
    destruct (metadata_at P s (num b)) as [m| |] eqn:M; [|done|done].
    destruct (_ && _) eqn:RG; cbn [negb] in H; [|done]. apply andb_true_iff in RG as [R1 R2]. apply N.leb_le in R1, R2.
    destruct (extract _ _ _) as [vs|] eqn:X; [|done]. destruct (verify_proof_weight _ _) as [[]| |] eqn:W; [|done|done].
    destruct (agg_verify _ _ _ _) eqn:A; [|done]. exists m, vs. rewrite EN. rewrite EN in M, R1, R2. apply conj; [done|]. apply conj; [done|]. apply conj; [done|]. apply conj; [exact A|].
    intros ND. apply EX in X. pose proof (selects_nodup _ _ X ND) as NV. split; [done|].
    destruct (verify_weight_ok _ _ ND NV W) as [IN Q]. split; [|done].
    intros x IX. apply IN, elem_of_list_fmap in IX as (v & -> & V). by exists v.
  Qed.

  (** Any such quorum is accepted (as long as three times the total weight fits a u64). *)
  Theorem C37_quorum_suffices : forall l voters, NoDup (map v_pub l) -> NoDup voters -> (forall x, x ∈ voters -> x ∈ map v_pub l) ->
    3 * sumw l < 2 ^ 64 -> 2 * sumw l < 3 * wsum (fun v => bool_decide (v_pub v ∈ voters)) l ->
    verify_proof_weight (weight_map l) voters = Ok ().
  Proof using. intros. by apply verify_weight_accepts. Qed.

  (** Quorum intersection, for any weights. *)
  Theorem C37_intersect : forall (l : list validator) (a b : list bytes),
    2 * sumw l < 3 * wsum (fun v => bool_decide (v_pub v ∈ a)) l ->
    2 * sumw l < 3 * wsum (fun v => bool_decide (v_pub v ∈ b)) l ->
    sumw l < 3 * wsum (fun v => bool_decide (v_pub v ∈ a) && bool_decide (v_pub v ∈ b)) l /\
    exists v, v ∈ l /\ v_pub v ∈ a /\ v_pub v ∈ b.
  Proof using.
    intros l a b A B.
    pose proof (wsum_split (fun v => bool_decide (v_pub v ∈ a)) (fun v => bool_decide (v_pub v ∈ b)) l) as SP.
    pose proof (wsum_le (fun v => bool_decide (v_pub v ∈ a) || bool_decide (v_pub v ∈ b)) l) as LE. cbn beta in SP, LE.
    assert (Q : sumw l < 3 * wsum (fun v => bool_decide (v_pub v ∈ a) && bool_decide (v_pub v ∈ b)) l) by lia. split; [done|].
    destruct (wsum_pos (fun v => bool_decide (v_pub v ∈ a) && bool_decide (v_pub v ∈ b)) l) as (v & V & E); [lia|].
    apply andb_true_iff in E as [E1 E2]. apply bool_decide_eq_true in E1, E2. by exists v.
  Qed.
  (** and under a third of faulty weight the common signer can be chosen honest *)
  Theorem C37_honest : forall (l : list validator) (faulty : validator -> bool) (a b : list bytes),
    2 * sumw l < 3 * wsum (fun v => bool_decide (v_pub v ∈ a)) l ->
    2 * sumw l < 3 * wsum (fun v => bool_decide (v_pub v ∈ b)) l ->
    3 * wsum faulty l <= sumw l ->
    exists v, v ∈ l /\ v_pub v ∈ a /\ v_pub v ∈ b /\ faulty v = false.
  Proof using.
    intros l f a b A B F. destruct (C37_intersect l a b A B) as [Q _].
    destruct (wsum_pos (fun v => (bool_decide (v_pub v ∈ a) && bool_decide (v_pub v ∈ b)) && negb (f v)) l) as (v & V & E).
    - pose proof (wsum_split (fun v => (bool_decide (v_pub v ∈ a) && bool_decide (v_pub v ∈ b)) && negb (f v)) f l) as SP. cbn beta in SP.
      assert (M : wsum (fun v => bool_decide (v_pub v ∈ a) && bool_decide (v_pub v ∈ b)) l <=
                  wsum (fun v => bool_decide (v_pub v ∈ a) && bool_decide (v_pub v ∈ b) && negb (f v) || f v) l).
      { apply wsum_mono. intros v _ ->. by destruct (f v). }
      lia.
    - apply andb_true_iff in E as [E E3]. apply andb_true_iff in E as [E1 E2]. apply bool_decide_eq_true in E1, E2. apply negb_true_iff in E3. by exists v.
  Qed.

  (** Two accepted proofs for one height under one metadata share an honest signer, who signed both votes. *)
  Theorem C37_two_proofs : extract_selects -> forall s s' b b' pf pf' m faulty,
    verify_proof P s b pf = Ok () -> verify_proof P s' b' pf' = Ok () -> num b <> 0 -> num b' <> 0 ->
    metadata_at P s (num b) = Ok m -> metadata_at P s' (num b') = Ok m -> NoDup (map v_pub (m_verifiers m)) ->
    3 * wsum faulty (m_verifiers m) <= sumw (m_verifiers m) ->
    exists v (signers signers' : list bytes), v ∈ m_verifiers m /\ faulty v = false /\ v_pub v ∈ signers /\ v_pub v ∈ signers' /\
      agg_verify P (digest P (vote_bytes P (num b) (pf_round pf) (pf_block_hash pf)))
        (map v_bls (filter (fun v => v_pub v ∈ signers) (m_verifiers m))) (pf_signature pf) = true /\
      agg_verify P (digest P (vote_bytes P (num b') (pf_round pf') (pf_block_hash pf')))
        (map v_bls (filter (fun v => v_pub v ∈ signers') (m_verifiers m))) (pf_signature pf') = true.
  Proof using.
    intros EX s s' b b' pf pf' m f V V' N0 N0' M M' ND F.
    destruct (C37_quorum EX s b pf V N0) as (m1 & g & E1 & _ & _ & A & Q). rewrite M in E1. injection E1 as <-.
    destruct (C37_quorum EX s' b' pf' V' N0') as (m2 & g' & E2 & _ & _ & A' & Q'). rewrite M' in E2. injection E2 as <-.
    destruct (Q ND) as (_ & _ & W), (Q' ND) as (_ & _ & W').
    destruct (C37_honest _ f g g' W W' F) as (v & ? & ? & ? & ?). by exists v, g, g'.
  Qed.

  (* ---------------------------------------------------------------------- *)
  (** * C42 *)
  Theorem C42_validate : forall now proposed previous,
    validate_timestamp now proposed previous = true <-> previous <= proposed <= now.
  Proof using.
    intros now p q. unfold validate_timestamp. destruct (N.ltb_spec p q), (N.ltb_spec now p); split; intros; try discriminate; try lia; reflexivity.
  Qed.
  (** A proposal of another node is accepted only between its parent's time and now. *)
  Theorem C42_checked : forall n next hash p i, (check_block P n next hash p i).2 = Ok () -> hash ∉ nd_exempt P n ->
    exists prev, block_by_number P (store P n) (p_number p - 1) = Ok prev /\ p_prev_hash p = block_hash P prev /\ 0 < p_number p /\
      h_timestamp (BlockModel.b_header prev) <= p_timestamp p <= ci_now P i.
  Proof using.
    intros n next hash p i. unfold check_block. destruct (_ <=? _); [done|]. destruct (negb _); [by destruct (_ =? 0)|]. destruct (negb _); [done|].
    intros H NE. rewrite bool_decide_false in H by done. unfold inner_check in H.
    unfold verify_block_header in H. destruct (N.eqb_spec (p_number p) 0); [done|].
    destruct (block_by_number _ _ _) as [prev| |] eqn:B; [|done|done]. destruct (beqb _ _) eqn:HH; [|done].
    destruct (validate_timestamp _ _ _) eqn:T; [|done]. apply C42_validate in T. apply beqb_eq in HH. exists prev.
    repeat split; try done; lia.
  Qed.

  (* ---------------------------------------------------------------------- *)
  (** * C38: single commits *)
  Theorem C38_refused : forall n stopped current content pf full,
    current <> st_last (nd_status P n) -> current <> st_last (nd_status P n) + 1 ->
    exists r, commit P n stopped current content pf full = (n, r) /\ forall k, r <> Ok k.
  Proof using.
    intros n st c p pf f N1 N2. unfold commit, plan_commit. destruct st; [by eexists|]. destruct (nd_commit_lock P n); [by eexists|].
    destruct (_ <=? _); [by eexists|]. destruct (metadata_at _ _ _); [|by eexists|by eexists].
    destruct (N.eqb_spec c (st_last (nd_status P n))); [done|]. destruct (_ <=? _); [by eexists|].
    destruct (N.eqb_spec c (st_last (nd_status P n) + 1)); [done|]. by eexists.
  Qed.
  Theorem C38_repeat_harmless : forall n stopped content pf full,
    (commit P n stopped (st_last (nd_status P n)) content pf full).1 = n.
  Proof using.
    intros n st p pf f. unfold commit, plan_commit. destruct st; [done|]. destruct (nd_commit_lock P n); [done|].
    destruct (_ <=? _); [done|]. destruct (metadata_at _ _ _); [|done|done]. by rewrite N.eqb_refl.
  Qed.
  (** What a commit that changes the node did. *)
  Lemma commit_writes_next n stopped current content pf full b pf' l r :
    plan_commit P n stopped current content pf full = PWrite P b pf' l r ->
    stopped = false /\ nd_commit_lock P n = false /\ current = st_last (nd_status P n) + 1 /\ current + 1 < 2 ^ 64 /\ pf' = pf /\
    exec P (st_root (nd_status P n)) content l = Ok r /\ b = new_block content r.
  Proof using.
    unfold plan_commit. destruct stopped; [done|]. destruct (nd_commit_lock P n); [done|]. destruct (N.leb_spec U64 (current + 1)) as [|L]; [done|].
    destruct (metadata_at _ _ _); [|done|done]. destruct (_ =? _); [done|]. destruct (_ <=? _); [done|].
    destruct (N.eqb_spec current (st_last (nd_status P n) + 1)) as [E|]; [|done]. cbn [negb].
    assert (G : forall (o : outcome (list (stx P))), match o with Ok l => match exec P (st_root (nd_status P n)) content l with
       Ok r => PWrite P (new_block content r) pf l r | Err => PDone P Err | Panic => PDone P Panic end | Err => PDone P Err | Panic => PDone P Panic end = PWrite P b pf' l r ->
       pf' = pf /\ exec P (st_root (nd_status P n)) content l = Ok r /\ b = new_block content r).
    { intros [x| |]; [|done|done]. destruct (exec P _ content x) as [y| |] eqn:X; [|done|done]. intros [= <- <- <- <-]. done. }
    intros H. destruct (G _ H) as (? & ? & ?). done.
  Qed.
  Theorem C38_only_next : forall n stopped current content pf full,
    (commit P n stopped current content pf full).1 <> n ->
    current = st_last (nd_status P n) + 1 /\ stopped = false /\ nd_commit_lock P n = false /\
    exists b txs r, exec P (st_root (nd_status P n)) content txs = Ok r /\ b = new_block content r /\
      nd_store P (commit P n stopped current content pf full).1 = writes P (nd_store P n) (commit_writes P b pf txs r).
  Proof using.
    intros n st c p pf f. unfold commit. destruct (plan_commit P n st c p pf f) as [r|b pf' l r] eqn:E; [done|]. intros _.
    destruct (commit_writes_next _ _ _ _ _ _ _ _ _ _ E) as (-> & ? & ? & ? & -> & ? & ?). do 3 (apply conj; [done|]). exists b, l, r. do 2 (apply conj; [done|]).
    destruct (after_save _ _ _); [|done|done]. by destruct (metadata_at _ _ _).
  Qed.
  Lemma commit_status n stopped current content pf full :
    let n' := (commit P n stopped current content pf full).1 in
    (nd_status P n' = nd_status P n \/
     (current = st_last (nd_status P n) + 1 /\ current + 1 < 2 ^ 64 /\ nd_commit_lock P n = false /\ st_last (nd_status P n') = p_number content)) /\
    nd_syncing P n' = nd_syncing P n /\ nd_commit_lock P n' = nd_commit_lock P n /\ nd_tasks P n' = nd_tasks P n.
  Proof using.
    cbn. unfold commit. destruct (plan_commit P n stopped current content pf full) as [r|b pf' l r] eqn:E; [auto|].
    destruct (commit_writes_next _ _ _ _ _ _ _ _ _ _ E) as (-> & L & ? & ? & -> & ? & ->).
    destruct (after_save _ _ _); [|auto|auto].
    destruct (metadata_at _ _ _); cbn; auto 10.
  Qed.

  (* ---------------------------------------------------------------------- *)
  (** * Executions (history newest first) *)
  Fixpoint run (n0 : node P) (h : list (event P)) : node P :=
    match h with [] => n0 | e :: r => step P (run n0 r) e end.

  (** No synchronisation is going on. *)
  Definition idle (n : node P) : Prop := nd_syncing P n = false /\ nd_commit_lock P n = false /\ nd_tasks P n = [].

  (** the shape of the synchronisation state after the calls [h] *)
  Definition shape (h : list (event P)) (n : node P) : Prop :=
    (nd_syncing P n = false /\ nd_commit_lock P n = false /\ nd_tasks P n = []) \/
    (nd_syncing P n = true /\ exists t r, nd_tasks P n = [t] /\ VAnnounce P r ∈ h /\
       match t with
       | TSleep r' => r' = r /\ nd_commit_lock P n = false
       | TLock r' => r' = r /\ nd_commit_lock P n = false
       | TRun r' cur target agent => r' = r /\ nd_commit_lock P n = true /\ st_last (nd_status P n) <= cur <= target /\ target <= r /\
           target <= st_last (nd_status P n) + ONCE_SYNC_BLOCK_LIMIT /\ st_last agent = cur /\ st_last (nd_status P n) + 50 < U64
       end).

  Lemma shape_mono h h' n : (forall r, VAnnounce P r ∈ h -> VAnnounce P r ∈ h') -> shape h n -> shape h' n.
  Proof using.
    intros M [S|(S & t & r & T & A & X)]; [by left|right]. split; [done|]. exists t, r. auto.
  Qed.
  Lemma shape_same h n n' : shape h n -> nd_status P n' = nd_status P n -> nd_syncing P n' = nd_syncing P n ->
    nd_commit_lock P n' = nd_commit_lock P n -> nd_tasks P n' = nd_tasks P n -> shape h n'.
  Proof using. unfold shape. intros S -> -> -> ->. done. Qed.

  Lemma sync_plan_number n cur agent i b txs x : sync_plan P n cur agent i = Ok (b, txs, x) -> num b = cur + 1.
  Proof using.
    unfold sync_plan, get_rich_block. destruct (N.eqb_spec (num (fi_block P i)) (cur + 1)) as [E|]; [cbn [negb]|done].
    destruct (split_mem _ _ _ _ _ _ _) as [[res mi] ml]. case_bool_decide; [done|]. destruct (pull _ _ _ _ _) as [[res' mi']| |]; [|done|done].
    case_bool_decide; [|done]. destruct (verify_block _ _ _ _ _ _); [|done|done]. destruct (plan_sync _ _ _ _ _ _); [|done|done].
    intros [= <- _ _]. done.
  Qed.

  Lemma shape_step h n e : shape h n -> shape (e :: h) (step P n e).
  Proof using.
    intros S. assert (S' : shape (e :: h) n) by (eapply shape_mono; [|exact S]; intros r R; apply elem_of_cons; by right).
    destruct e as [next i|next hash p i|st c p pf f|r|k i|e]; cbn [step].
    - unfold get_proposal. destruct (_ <=? _); [done|]. destruct (negb _); [done|]. by eapply shape_same.
    - unfold check_block. destruct (_ <=? _); [done|]. destruct (negb _); [done|]. destruct (negb _); [done|].
      destruct (if bool_decide _ then _ else _); [|done|done]. destruct (ci_full _ _ _); [|done|done]. by eapply shape_same.
    - destruct (commit_status n st c p pf f) as ([E|(_ & _ & L & _)] & E1 & E2 & E3).
      + by eapply shape_same.
      + revert E1 E2 E3. generalize (commit P n st c p pf f).1. intros n' E1 E2 E3. unfold shape. rewrite E1, E2, E3.
        destruct S' as [S'|(SY & t & r & T & A & X)]; [by left|right]. split; [done|]. exists t, r. do 2 (split; [done|]).
        destruct t as [r'|r'|r' cu ta ag]; [done|done|]. destruct X as (_ & X & _). congruence.
    - unfold announce. destruct (nd_syncing P n) eqn:SY; [done|]. destruct (_ =? 0); [done|]. destruct (_ <=? _); [done|].
      destruct S as [(_ & L & T)|(F & _)]; [|congruence]. right. split; [done|].
      exists (if st_last (nd_status P n) =? r - 1 then TSleep r else TLock r), r. cbn. rewrite T. split; [done|].
      split; [apply elem_of_cons; by left|]. rewrite L. by destruct (_ =? _).
    - unfold task_step. destruct S' as [(SY & L & T)|(SY & t & r & T & A & X)].
      + rewrite T, lookup_nil. by left.
      + rewrite T. destruct k as [|k]; [|by right; split; [|exists t, r]]. cbn [lookup list_lookup].
        assert (FIN : forall n' rel, nd_tasks P n' = [t] -> (rel = true \/ nd_commit_lock P n' = false) -> shape (VTask P 0 i :: h) (finish P n' 0 rel)).
        { intros n' rel T' R. left. unfold finish. cbn. rewrite T'. cbn. destruct R as [->| ->]; [done|by destruct rel]. }
        destruct t as [r'|r'|r' cu ta ag].
        * destruct X as [-> L]. destruct (_ =? _); [by apply FIN; [|right]|]. right. split; [done|]. exists (TLock r), r. cbn. rewrite L. done.
        * destruct X as [-> L]. rewrite L. destruct (N.leb_spec r (st_last (nd_status P n))); [by apply FIN; [|right]|].
          destruct (N.leb_spec U64 (st_last (nd_status P n) + ONCE_SYNC_BLOCK_LIMIT)); [by apply FIN; [|right]|].
          right. split; [done|]. eexists _, r. split; [cbn; reflexivity|]. split; [done|]. cbn. unfold ONCE_SYNC_BLOCK_LIMIT in *.
          destruct (N.ltb_spec r (st_last (nd_status P n) + 50)); repeat split; lia.
        * destruct X as (-> & L & LE & TR & TL & AG & BB). destruct (N.ltb_spec cu ta) as [C|C].
          2:{ apply FIN; [done|by left]. }
          destruct i as [i|]; [|apply FIN; [done|by left]].
          destruct (sync_plan P n cu ag i) as [[[b txs] x]| |] eqn:SP; [|apply FIN; [done|by left]|apply FIN; [done|by left]].
          apply sync_plan_number in SP. right. split; [done|]. eexists _, r. split; [cbn; reflexivity|]. split; [done|]. cbn.
          rewrite SP. repeat split; lia.
    - destruct (cache_event _ _); [|done]. by eapply shape_same.
  Qed.
  Lemma shape_run n0 h : idle n0 -> shape h (run n0 h).
  Proof using. intros ID. induction h as [|e h IH]; [by left|]. by apply shape_step. Qed.

  (* ---------------------------------------------------------------------- *)
  (** * C41 *)
  (** At most one run, whatever is announced and however the calls interleave. *)
  Theorem C41_one_run : forall n0 h, idle n0 -> (length (nd_tasks P (run n0 h)) <= 1)%nat /\
    (nd_syncing P (run n0 h) = true <-> nd_tasks P (run n0 h) <> []).
  Proof using.
    intros n0 h ID. destruct (shape_run n0 h ID) as [(-> & _ & ->)|(-> & t & r & -> & _)]; cbn; (split; [lia|]); split; done.
  Qed.
  (** While a run is active it is bounded by the batch limit and by the announced height, it holds the commit lock
      and its blocks go up from the committed height. *)
  Theorem C41_run_bounds : forall n0 h remote current target agent, idle n0 ->
    TRun remote current target agent ∈ nd_tasks P (run n0 h) ->
    VAnnounce P remote ∈ h /\ st_last (nd_status P (run n0 h)) <= current <= target /\ target <= remote /\
    target <= st_last (nd_status P (run n0 h)) + 50 /\ st_last agent = current /\ nd_commit_lock P (run n0 h) = true.
  Proof using.
    intros n0 h r cu ta ag ID IN. destruct (shape_run n0 h ID) as [(_ & _ & T)|(_ & t & r' & T & A & X)]; rewrite T in IN.
    - by apply elem_of_nil in IN.
    - apply elem_of_list_singleton in IN. subst t. unfold ONCE_SYNC_BLOCK_LIMIT in X. destruct X as (-> & X). tauto.
  Qed.
  (** The height published by a step of a run: never lower, at most 50 higher, only towards an announced height. *)
  Theorem C41_progress : forall n0 h k i, idle n0 ->
    let a := run n0 h in let b := task_step P a k i in
    st_last (nd_status P a) <= st_last (nd_status P b) <= st_last (nd_status P a) + 50 /\
    (st_last (nd_status P b) <> st_last (nd_status P a) -> exists r, VAnnounce P r ∈ h /\ st_last (nd_status P b) <= r).
  Proof using.
    intros n0 h k i ID. cbn. pose proof (shape_run n0 h ID) as S. revert S. generalize (run n0 h). intros n S.
    assert (ST : forall n' : node P, st_last (nd_status P n') = st_last (nd_status P n) ->
       st_last (nd_status P n) <= st_last (nd_status P n') <= st_last (nd_status P n) + 50 /\
       (st_last (nd_status P n') <> st_last (nd_status P n) -> exists r, VAnnounce P r ∈ h /\ st_last (nd_status P n') <= r)).
    { intros n' E. rewrite E. split; [lia|done]. }
    unfold task_step. destruct S as [(_ & L & T)|(_ & t & r & T & A & X)]; rewrite T.
    - rewrite lookup_nil. by apply ST.
    - destruct k as [|k]; [|by apply ST]. cbn [lookup list_lookup]. destruct t as [r'|r'|r' cu ta ag].
      + destruct (_ =? _); by apply ST.
      + destruct (nd_commit_lock P n); [by apply ST|]. destruct (_ <=? _); [by apply ST|]. destruct (_ <=? _); by apply ST.
      + destruct X as (-> & L & LE & TR & TL & AG & BB).
        assert (ED : st_last (nd_status P n) <= st_last ag <= st_last (nd_status P n) + 50 /\
           (st_last ag <> st_last (nd_status P n) -> exists r, VAnnounce P r ∈ h /\ st_last ag <= r)).
        { unfold ONCE_SYNC_BLOCK_LIMIT in TL. split; [lia|]. intros _. exists r. split; [done|]. lia. }
        destruct (_ <? _); [|exact ED]. destruct i as [i|]; [|exact ED]. destruct (sync_plan P n cu ag i) as [[[b txs] x]| |]; [by apply ST|exact ED|exact ED].
  Qed.
  (** A consensus commit during a run is refused. *)
  Theorem C41_commit_blocked : forall n0 h remote current target agent stopped c p pf full, idle n0 ->
    TRun remote current target agent ∈ nd_tasks P (run n0 h) ->
    commit P (run n0 h) stopped c p pf full = (run n0 h, Err).
  Proof using.
    intros n0 h r cu ta ag st c p pf f ID IN. destruct (C41_run_bounds _ _ _ _ _ _ ID IN) as (_ & _ & _ & _ & _ & L).
    unfold commit, plan_commit. rewrite L. by destruct st.
  Qed.

  (* ---------------------------------------------------------------------- *)
  (** * C38 on whole executions *)
  (** every commit offered carries a proposal for the height it is offered at *)
  Definition numbered (h : list (event P)) : Prop :=
    Forall (fun e => match e with VCommit _ _ c p _ _ => p_number p = c | _ => True end) h.
  (** The committed height never goes down; only a commit of the next height or a synchronisation step moves it. *)
  Theorem C38_monotone_partial : forall n0 h e, idle n0 -> numbered (e :: h) ->
    let a := run n0 h in let b := run n0 (e :: h) in
    st_last (nd_status P a) <= st_last (nd_status P b) /\
    match e with
    | VCommit _ _ c _ _ _ => st_last (nd_status P b) = st_last (nd_status P a) \/ (st_last (nd_status P b) = c /\ c = st_last (nd_status P a) + 1)
    | VTask _ _ _ => True
    | _ => st_last (nd_status P b) = st_last (nd_status P a)
    end.
  Proof using.
    intros n0 h e ID NB. cbn. apply Forall_cons in NB as [NE NB].
    destruct e as [next i|next hash p i|st c p pf f|r|k i|e]; cbn [step].
    - assert (E : st_last (nd_status P (get_proposal P (run n0 h) next i).1) = st_last (nd_status P (run n0 h))); [|rewrite E; split; [lia|done]].
      unfold get_proposal. destruct (_ <=? _); [done|]. by destruct (negb _).
    - assert (E : st_last (nd_status P (check_block P (run n0 h) next hash p i).1) = st_last (nd_status P (run n0 h))); [|rewrite E; split; [lia|done]].
      unfold check_block. destruct (_ <=? _); [done|]. destruct (negb _); [done|]. destruct (negb _); [done|].
      destruct (if bool_decide _ then _ else _); [|done|done]. by destruct (ci_full _ _ _).
    - destruct (commit_status (run n0 h) st c p pf f) as ([E|(E & _ & _ & L)] & _).
      + rewrite E. split; [lia|by left].
      + rewrite L, NE. split; [lia|right; done].
    - assert (E : st_last (nd_status P (announce P (run n0 h) r)) = st_last (nd_status P (run n0 h))); [|rewrite E; split; [lia|done]].
      unfold announce. destruct (nd_syncing _ _); [done|]. destruct (_ =? 0); [done|]. by destruct (_ <=? _).
    - split; [|done]. by apply C41_progress.
    - assert (E : st_last (nd_status P (if cache_event P e then set_store P (run n0 h) (e :: nd_store P (run n0 h)) else run n0 h)) = st_last (nd_status P (run n0 h))).
      { by destruct (cache_event _ _). }
      rewrite E. split; [lia|done].
  Qed.
End Props.

(** C37 fails for a validator list that repeats an address: the map keeps one weight per address but every selected
    position counts.  Five positions, three addresses; one address alone passes for a quorum. *)
Definition dup_validators : list validator :=
  [Validator [1] [11] 1; Validator [1] [12] 1; Validator [1] [13] 1; Validator [2] [14] 1; Validator [3] [15] 1].
Theorem C37_repeated_address_refuted : exists (l : list validator) (voters : list bytes),
  voters ⊆+ map v_pub l /\ verify_proof_weight (weight_map l) voters = Ok () /\
  (forall x, x ∈ voters -> x = [1]) /\ total_weight (weight_map l) = 3 /\ weight_map l !! ([1] : bytes) = Some 1.
Proof.
  exists dup_validators, [[1];[1];[1]]. split.
  { cbn. do 3 apply submseteq_skip. apply submseteq_nil_l. }
  split; [vm_compute; reflexivity|]. split.
  { intros x X. rewrite !elem_of_cons in X. destruct X as [->|[->|[->|X]]]; [done|done|done|by apply elem_of_nil in X]. }
  split; vm_compute; reflexivity.
Qed.

(** four validators of different weights *)
Definition ex_validators : list validator :=
  [Validator [1] [11] 4; Validator [2] [12] 3; Validator [3] [13] 2; Validator [4] [14] 1].
Example C37_quorum_example : verify_proof_weight (weight_map ex_validators) [[1];[2]] = Ok () /\
  verify_proof_weight (weight_map ex_validators) [[1];[3]] = Err /\
  verify_proof_weight (weight_map ex_validators) [[2];[3];[4]] = Err /\
  verify_proof_weight (weight_map ex_validators) [[1];[2];[3]] = Ok ().
Proof. vm_compute. auto. Qed.
Example C37_boundary_example : (** exactly two thirds is not enough *)
  verify_proof_weight (weight_map [Validator [1] [] 1; Validator [2] [] 1; Validator [3] [] 1]) [[1];[2]] = Err.
Proof. vm_compute. auto. Qed.
Example C42_boundary_example : validate_timestamp 10 10 10 = true /\ validate_timestamp 10 9 10 = false /\ validate_timestamp 10 11 10 = false.
Proof. vm_compute. auto. Qed.

Print Assumptions C37_quorum.
Print Assumptions C37_quorum_suffices.
Print Assumptions C37_intersect.
Print Assumptions C37_honest.
Print Assumptions C37_two_proofs.
Print Assumptions C37_repeated_address_refuted.
Print Assumptions C38_refused.
Print Assumptions C38_repeat_harmless.
Print Assumptions C38_only_next.
Print Assumptions C38_monotone_partial.
Print Assumptions C41_one_run.
Print Assumptions C41_run_bounds.
Print Assumptions C41_progress.
Print Assumptions C41_commit_blocked.
Print Assumptions C42_validate.
Print Assumptions C42_checked.
