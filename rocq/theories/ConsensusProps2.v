(** C38, C39, C40, C59: the stored chain, crashes inside a commit, and whether a committed block can be extended. *)
From Verif Require Import Bytes BytesProofs Rlp TxModel WalModel StorageModel StorageProofs StorageProps BlockModel ConsensusModel ConsensusProofs ConsensusProps.
From stdpp Require Import base gmap list.
From Coq Require Import Lia.
Local Open Scope N_scope.

Section Props.
  Variable P : params.
  Notation num b := (BlockModel.h_number (BlockModel.b_header b)).
  Notation at_ h m := (block_at (I P) h m : option BlockModel.block).

  (* ---------------------------------------------------------------------- *)
  (** * C39: what one verified block satisfies *)
  Theorem C39_verified : forall s own_root b txs pf, verify_block P s own_root b txs pf = Ok () ->
    0 < num b /\ exists prev, block_by_number P s (num b - 1) = Ok prev /\
      h_prev_hash (BlockModel.b_header b) = block_hash P prev /\
      pf_number pf = num b /\
      pf_block_hash pf = proposal_hash P (with_state_root (BlockModel.b_header b) (h_state_root (BlockModel.b_header prev)) (b_tx_hashes b)) /\
      verify_proof P s b pf = Ok () /\
      verify_proof P s prev (h_proof (BlockModel.b_header b)) = Ok () /\
      stxs_digest P txs = h_signed_txs_hash (BlockModel.b_header b).
  Proof using.
    intros s root b txs pf. unfold verify_block. destruct (verify_proof P s b pf) as [[]| |] eqn:VP; [|done|done].
    unfold verify_block_header. cbn [p_number p_prev_hash with_state_root].
    destruct (N.eqb_spec (num b) 0) as [|NZ]; [done|].
    destruct (block_by_number P s (num b - 1)) as [prev| |] eqn:B; [|done|done].
    destruct (beqb (block_hash P prev) _) eqn:HH; [|done]. apply beqb_eq in HH.
    destruct (verify_proof P s prev _) as [[]| |] eqn:VP2; [|done|done].
    destruct (beqb (stxs_digest P txs) _) eqn:TD; [|done]. apply beqb_eq in TD. intros _. split; [lia|]. exists prev.
    pose proof VP as VP'. revert VP. unfold verify_proof at 1. destruct (N.eqb_spec (num b) 0) as [|_]; [done|].
    destruct (N.eqb_spec (num b) (pf_number pf)) as [EN|]; [cbn [negb]|done]. rewrite B.
    destruct (beqb _ (pf_block_hash pf)) eqn:PH; [cbn [negb]|done]. apply beqb_eq in PH. intros VP.
    do 2 (apply conj; [done|]). apply conj; [done|]. apply conj; [done|]. apply conj; done.
  Qed.
  (** and the executed roots are those of the header *)
  Theorem C39_executed : forall n cur agent i b txs r, sync_plan P n cur agent i = Ok (b, txs, r) ->
    num b = cur + 1 /\ verify_block P (store P n) (st_root (nd_status P n)) b txs (fi_proof P i) = Ok () /\
    exec P (st_root agent) (with_state_root (BlockModel.b_header b) (st_root (nd_status P n)) (b_tx_hashes b)) txs = Ok r /\
    e_state_root r = h_state_root (BlockModel.b_header b) /\ e_receipt_root r = h_receipts_root (BlockModel.b_header b).
  Proof using.
    intros n cur ag i b txs r H. pose proof (sync_plan_number _ _ _ _ _ _ _ _ H) as NB. revert H. unfold sync_plan.
    destruct (get_rich_block _ _ _) as [[b' txs']| |]; [|done|done]. destruct (verify_block _ _ _ _ _ _) as [[]| |] eqn:V; [|done|done].
    destruct (plan_sync _ _ _ _ _ _) as [r'| |] eqn:PS; [|done|done]. intros [= -> -> ->].
    unfold plan_sync in PS. destruct (exec _ _ _ _) as [x| |] eqn:X; [|done|done].
    destruct (beqb (e_state_root x) _) eqn:E1; [cbn [negb] in PS|done]. destruct (beqb (e_receipt_root x) _) eqn:E2; [cbn [negb] in PS|done].
    apply beqb_eq in E1, E2. destruct (metadata_at _ _ _); [|done|done]. injection PS as ->. done.
  Qed.

  (* ---------------------------------------------------------------------- *)
  (** * The stored chain *)
  Record chain (h : list (sevent (I P))) (top : N) : Prop := {
    ch_all : forall m, m <= top -> exists b, at_ h m = Some b /\ num b = m;
    ch_none : forall m, top < m -> at_ h m = None;
    ch_link : forall m a b, 0 < m <= top -> at_ h m = Some b -> at_ h (m - 1) = Some a -> h_prev_hash (BlockModel.b_header b) = block_hash P a }.
  Definition tip (h : list (sevent (I P))) (st : status) : Prop :=
    chain h (st_last st) /\ st_last st < 2 ^ 64 /\ exists b, at_ h (st_last st) = Some b /\ st_prev_hash st = block_hash P b.
  Definition front (n : node P) : status :=
    match nd_tasks P n with [TRun _ _ _ agent] => agent | _ => nd_status P n end.
  Record good (n : node P) : Prop := {
    gd_wf : Forall (wf_event (I P)) (nd_store P n);
    gd_stable : bstable (I P) (nd_store P n);
    gd_tip : tip (nd_store P n) (front n) }.

  (** A node that starts: nothing in progress and a stored chain from 0 to its last block. *)
  Definition start (n : node P) : Prop := idle P n /\ good n.

  (** The types: hashes of transactions and receipts have 32 bytes, heights are u64. *)
  Definition typed : Prop := (forall t, length (stx_hash P t) = 32%nat) /\ (forall t, length (rcpt_hash P t) = 32%nat).
  (** What is assumed of the calls: a committed proposal has the height it is committed at and names the last block as parent. *)
  Definition extends (n : node P) (e : event P) : Prop :=
    match e with
    | VCommit _ _ c p _ _ => p_number p = c /\ (c = st_last (nd_status P n) + 1 -> p_prev_hash p = st_prev_hash (nd_status P n))
    | VCache _ e => wf_event (I P) e
    | _ => True
    end.
  Fixpoint extending (n0 : node P) (h : list (event P)) : Prop :=
    match h with [] => True | e :: r => extends (run P n0 r) e /\ extending n0 r end.

  Lemma stored n m : good n -> m < 2 ^ 64 ->
    block_by_number P (store P n) m = match at_ (nd_store P n) m with Some b => Ok b | None => Err end.
  Proof using. intros G L. unfold block_by_number, store. by rewrite (srun_get_block (I P) (nd_store P n) m (gd_wf _ G) (gd_stable _ G) L). Qed.

  Lemma cache_at e h m : cache_event P e = true -> at_ (e :: h) m = at_ h m.
  Proof using. by destruct e. Qed.

  (** appending one block above the top *)
  Lemma extend_chain h h' top b : chain h top -> num b = top + 1 -> (exists a, at_ h top = Some a /\ h_prev_hash (BlockModel.b_header b) = block_hash P a) ->
    (forall m, at_ h' m = if decide (num b = m) then Some b else at_ h m) -> chain h' (top + 1).
  Proof using.
    intros C NB (a & A & L) E. split.
    - intros m M. rewrite E. destruct (decide (num b = m)) as [<-|NE]; [by exists b|]. apply (ch_all _ _ C). lia.
    - intros m M. rewrite E. rewrite decide_False by lia. apply (ch_none _ _ C). lia.
    - intros m x y M. rewrite !E. rewrite (decide_False (P := num b = m - 1)) by lia. destruct (decide (num b = m)) as [<-|NE].
      + intros [= <-]. replace (num b - 1) with top by lia. rewrite A. by intros [= <-].
      + apply (ch_link _ _ C). lia.
  Qed.

  Definition quiet (e : sevent (I P)) : bool := match e with ETxs _ _ _ | ERcpts _ _ _ | EProof _ _ | ELatest _ _ => true | _ => false end.
  Lemma quiet_stable e h : quiet e = true -> bstable (I P) h -> bstable (I P) (e :: h).
  Proof using. intros Q S. split; [|done]. intros m b. by destruct e. Qed.
  Lemma set_stable b h : at_ h (num b) = None -> bstable (I P) h -> bstable (I P) (ESet (I P) b :: h).
  Proof using.
    intros N S. split; [|done]. intros m x X. cbn. destruct (decide (num b = m)) as [E|_]; [|done]. subst m. rewrite N in X. discriminate X.
  Qed.

  Lemma good_same n n' : good n -> nd_store P n' = nd_store P n -> front n' = front n -> good n'.
  Proof using. intros [A B C] E F. split; [by rewrite E|by rewrite E|by rewrite E, F]. Qed.

  (** The writes of a commit and of a synchronised block. *)
  Lemma good_commit h b pf l r : typed -> Forall (wf_event (I P)) h -> bstable (I P) h -> num b < 2 ^ 64 -> at_ h (num b) = None ->
    Forall (wf_event (I P)) (writes P h (commit_writes P b pf l r)) /\ bstable (I P) (writes P h (commit_writes P b pf l r)) /\
    (forall m, at_ (writes P h (commit_writes P b pf l r)) m = if decide (num b = m) then Some b else at_ h m).
  Proof using.
    intros [TY1 TY2] W S L N. unfold writes, commit_writes. cbn [fold_left]. split; [|split].
    - repeat (apply Forall_cons; split); try done.
      + split; [done|]. apply Forall_forall. intros x _. apply TY2.
      + split; [done|]. apply Forall_forall. intros x _. apply TY1.
    - apply quiet_stable; [done|]. apply set_stable; [done|]. by repeat (apply quiet_stable; [done|]).
    - done.
  Qed.
  Lemma good_sync h b l r : typed -> Forall (wf_event (I P)) h -> bstable (I P) h -> num b < 2 ^ 64 -> at_ h (num b) = None ->
    Forall (wf_event (I P)) (writes P h (sync_writes P b l r)) /\ bstable (I P) (writes P h (sync_writes P b l r)) /\
    (forall m, at_ (writes P h (sync_writes P b l r)) m = if decide (num b = m) then Some b else at_ h m).
  Proof using.
    intros [TY1 TY2] W S L N. unfold writes, sync_writes. cbn [fold_left]. split; [|split].
    - repeat (apply Forall_cons; split); try done.
      + split; [done|]. apply Forall_forall. intros x _. apply TY2.
      + split; [done|]. apply Forall_forall. intros x _. apply TY1.
    - apply quiet_stable; [done|]. apply set_stable; [done|]. by repeat (apply quiet_stable; [done|]).
    - done.
  Qed.

  Lemma good_step hh n e : typed -> (forall r m, after_save P r m = Ok ()) -> shape P hh n -> good n -> extends n e -> good (step P n e).
  Proof using.
    intros TY AS S G EX. destruct e as [next i|next hash p i|st c p pf f|r|k i|e]; cbn [step].
    - unfold get_proposal. destruct (_ <=? _); [done|]. destruct (negb _); [done|]. by eapply good_same.
    - unfold check_block. destruct (_ <=? _); [done|]. destruct (negb _); [done|]. destruct (negb _); [done|].
      destruct (if bool_decide _ then _ else _); [|done|done]. destruct (ci_full _ _ _); [|done|done]. by eapply good_same.
    - unfold commit. destruct (plan_commit P n st c p pf f) as [r|b pf' l r] eqn:PL; [done|].
      destruct (commit_writes_next _ _ _ _ _ _ _ _ _ _ _ PL) as (-> & LK & -> & LT & -> & XE & ->). rewrite AS.
      destruct EX as [EN EP]. specialize (EP eq_refl).
      assert (NR : front n = nd_status P n).
      { unfold front. destruct S as [(_ & _ & T)|(_ & t & r' & T & _ & X)]; rewrite T; [done|]. destruct t; [done|done|]. destruct X as (_ & X & _). congruence. }
      assert (NB : num (new_block p r) = st_last (nd_status P n) + 1) by exact EN.
      pose proof (gd_tip _ G) as (CH & TL & a & A & TP). rewrite NR in CH, TL, A, TP.
      destruct (good_commit (nd_store P n) (new_block p r) pf l r TY (gd_wf _ G) (gd_stable _ G)) as (W & B & E).
      { rewrite NB. lia. }
      { apply (ch_none _ _ CH). rewrite NB. lia. }
      assert (GG : forall w, good (Node P (Status_ (block_hash P (new_block p r)) (num (new_block p r)) (e_state_root r) pf)
         (writes P (nd_store P n) (commit_writes P (new_block p r) pf l r)) w [] (nd_syncing P n) (nd_commit_lock P n) (nd_tasks P n))).
      { intros w. split; [done|done|]. 
        assert (FR : front (Node P (Status_ (block_hash P (new_block p r)) (num (new_block p r)) (e_state_root r) pf)
         (writes P (nd_store P n) (commit_writes P (new_block p r) pf l r)) w [] (nd_syncing P n) (nd_commit_lock P n) (nd_tasks P n)) =
          Status_ (block_hash P (new_block p r)) (num (new_block p r)) (e_state_root r) pf).
        { unfold front. cbn. destruct S as [(_ & _ & T)|(_ & t & r' & T & _ & X)]; rewrite T; [done|]. destruct t; [done|done|]. destruct X as (_ & X & _). congruence. }
        rewrite FR. unfold tip. cbn [st_last st_prev_hash nd_store]. split; [|split].
        - rewrite NB. apply (extend_chain (nd_store P n) _ _ (new_block p r) CH NB); [|exact E]. exists a. split; [done|]. cbn. by rewrite EP.
        - rewrite NB. lia.
        - exists (new_block p r). split; [|done]. rewrite E. by rewrite decide_True. }
      specialize (GG (remove_upto (nd_wal P n) (st_last (nd_status P n) + 1 - 2))).
      by destruct (metadata_at _ _ _).
    - unfold announce. destruct (nd_syncing P n) eqn:SY; [done|]. destruct (_ =? 0); [done|]. destruct (_ <=? _); [done|].
      destruct S as [(_ & _ & T)|(F & _)]; [|congruence]. eapply good_same; [exact G|done|]. unfold front. cbn. rewrite T. cbn. by destruct (_ =? _).
    - unfold task_step. destruct S as [(_ & _ & T)|(_ & t & r & T & _ & X)]; rewrite T; [by rewrite lookup_nil|].
      destruct k as [|k]; [cbn [lookup list_lookup]|done].
      assert (FN : front n = match t with TRun _ _ _ ag => ag | _ => nd_status P n end) by (unfold front; rewrite T; by destruct t).
      destruct t as [r'|r'|r' cu ta ag].
      + destruct (_ =? _); (eapply good_same; [exact G|done|]); rewrite FN; unfold front; cbn; by rewrite ?T.
      + destruct (nd_commit_lock P n); [|destruct (_ <=? _); [|destruct (_ <=? _)]]; (eapply good_same; [exact G|done|]); rewrite FN; unfold front; cbn; by rewrite ?T.
      + destruct X as (-> & LK & LE & TR & TLI & AG & BB).
        assert (FI : good (finish P (set_status P n ag) 0 true)).
        { eapply good_same; [exact G|done|]. rewrite FN. unfold front. cbn. by rewrite T. }
        destruct (N.ltb_spec cu ta) as [CT|CT]; [|done]. destruct i as [i|]; [|done].
        destruct (sync_plan P n cu ag i) as [[[b txs] x]| |] eqn:SP; [|done|done].
        destruct (C39_executed _ _ _ _ _ _ _ SP) as (NB & V & _ & _ & _). apply C39_verified in V as (NZ & prev & PV & HP & _).
        pose proof (gd_tip _ G) as (CH & TL & a & A & TP). rewrite FN in CH, TL, A, TP. rewrite AG in CH, TL, A.
        assert (LT : num b < 2 ^ 64) by (change (2 ^ 64) with U64; unfold ONCE_SYNC_BLOCK_LIMIT in TLI; lia).
        rewrite (stored n (num b - 1) G) in PV by lia.
        replace (num b - 1) with cu in PV by lia. rewrite A in PV. injection PV as <-.
        destruct (good_sync (nd_store P n) b txs x TY (gd_wf _ G) (gd_stable _ G) LT) as (W & B & E).
        { apply (ch_none _ _ CH). lia. }
        split; [done|done|].
        set (n' := set_sync _ _ _ _ _).
        assert (FR : front n' = Status_ (block_hash P b) (num b) (e_state_root x) (fi_proof P i)) by (unfold n', front; cbn; done).
        rewrite FR. unfold tip. cbn [st_last st_prev_hash]. split; [|split; [done|]].
        * rewrite NB. apply (extend_chain (nd_store P n) _ _ b CH NB); [by exists a|exact E].
        * exists b. split; [|done]. unfold n'. cbn [nd_store set_sync set_store]. rewrite E. by rewrite decide_True.
    - destruct (cache_event _ e) eqn:CE; [|done]. destruct G as [W B (CH & TL & a & A & TP)]. split.
      + apply Forall_cons. split; [exact EX|exact W].
      + cbn [nd_store set_store]. split; [|exact B]. intros m b X. change (at_ (e :: nd_store P n) m = Some b). rewrite cache_at by done. exact X.
      + change (front (set_store P n (e :: nd_store P n))) with (front n). cbn [nd_store set_store]. split; [|split; [done|]].
        * split; intros; rewrite ?(cache_at e) in * by done; [by apply (ch_all _ _ CH)|by apply (ch_none _ _ CH)|by eapply (ch_link _ _ CH)].
        * exists a. by rewrite cache_at.
  Qed.
  Lemma good_run n0 h : typed -> (forall r m, after_save P r m = Ok ()) -> start n0 -> extending n0 h -> good (run P n0 h).
  Proof using.
    intros TY AS [ID G]. induction h as [|e h IH]; intros EX; [done|]. destruct EX as [E EX].
    apply (good_step h); [done|done|by apply shape_run|by apply IH|done].
  Qed.
  Lemma front_ge n0 h : idle P n0 -> st_last (nd_status P (run P n0 h)) <= st_last (front (run P n0 h)).
  Proof using.
    intros ID. unfold front. destruct (shape_run P n0 h ID) as [(_ & _ & T)|(_ & t & r & T & _ & X)]; rewrite T; [lia|].
    destruct t as [r'|r'|r' cu ta ag]; [lia|lia|]. destruct X as (_ & _ & X & _ & _ & -> & _). lia.
  Qed.

  (** C38: from a started node, every height up to the committed one is stored under its own number; when no synchronisation
      is running nothing is stored above it. *)
  Theorem C38_unbroken_partial : forall n0 h, typed -> (forall r m, after_save P r m = Ok ()) -> start n0 -> extending n0 h ->
    let n := run P n0 h in
    (forall m, m <= st_last (nd_status P n) -> exists b, block_by_number P (store P n) m = Ok b /\ num b = m) /\
    (nd_tasks P n = [] -> forall m, st_last (nd_status P n) < m < 2 ^ 64 -> block_by_number P (store P n) m = Err).
  Proof using.
    intros n0 h TY AS ST EX. cbn. pose proof (good_run n0 h TY AS ST EX) as G. pose proof (front_ge n0 h (proj1 ST)) as FG.
    destruct (gd_tip _ G) as (CH & TL & _). split.
    - intros m M. destruct (ch_all _ _ CH m) as (b & B & NB); [lia|]. exists b. split; [|done]. rewrite stored by (done || lia). by rewrite B.
    - intros T m M. unfold front in CH. rewrite T in CH. rewrite stored by (done || lia). by rewrite (ch_none _ _ CH m) by lia.
  Qed.
  (** C39: the stored chain is hash-linked, also while synchronisation is under way. *)
  Theorem C39_linked_partial : forall n0 h, typed -> (forall r m, after_save P r m = Ok ()) -> start n0 -> extending n0 h ->
    forall m a b, 0 < m < 2 ^ 64 -> block_by_number P (store P (run P n0 h)) m = Ok b -> block_by_number P (store P (run P n0 h)) (m - 1) = Ok a ->
    h_prev_hash (BlockModel.b_header b) = block_hash P a /\ num b = m /\ num a = m - 1.
  Proof using.
    intros n0 h TY AS ST EX m a b M. pose proof (good_run n0 h TY AS ST EX) as G. rewrite !(stored _ _ G) by lia.
    destruct (gd_tip _ G) as (CH & TL & _). destruct (at_ _ m) as [x|] eqn:X; [|done]. destruct (at_ _ (m - 1)) as [y|] eqn:Y; [|done].
    intros [= ->] [= ->]. destruct (N.le_gt_cases m (st_last (front (run P n0 h)))) as [L|L].
    - split; [exact (ch_link _ _ CH m a b (conj (proj1 M) L) X Y)|].
      destruct (ch_all _ _ CH m L) as (b' & B & NB). rewrite X in B. injection B as <-.
      destruct (ch_all _ _ CH (m - 1)) as (a' & A & NA); [lia|]. rewrite Y in A. by injection A as <-.
    - rewrite (ch_none _ _ CH m L) in X. discriminate X.
  Qed.
  (** A proposal of another node that is checked at the next height does name the last block as parent, so committing it is
      one of the calls allowed above. *)
  Theorem C39_checked_extends : forall n0 h next hash p i, typed -> (forall r m, after_save P r m = Ok ()) -> start n0 -> extending n0 h ->
    let n := run P n0 h in
    nd_tasks P n = [] -> (check_block P n next hash p i).2 = Ok () -> hash ∉ nd_exempt P n -> p_number p = st_last (nd_status P n) + 1 ->
    p_prev_hash p = st_prev_hash (nd_status P n).
  Proof using.
    intros n0 h next hash p i TY AS ST EX. cbn. pose proof (good_run n0 h TY AS ST EX) as G. intros T CB NE EN.
    destruct (C42_checked P _ _ _ _ _ CB NE) as (prev & B & PH & _ & _). rewrite EN in B.
    destruct (gd_tip _ G) as (CH & TL & a & A & TP). unfold front in *. rewrite T in *.
    replace (st_last (nd_status P (run P n0 h)) + 1 - 1) with (st_last (nd_status P (run P n0 h))) in B by lia.
    rewrite stored in B by done. rewrite A in B. injection B as <-. by rewrite PH, TP.
  Qed.

  (** Booting on the store of a fresh genesis gives a started node (run/components/storage.rs 70-81). *)
  Definition genesis_store (g : BlockModel.block) (txs : list (stx P)) (rs : list (rcpt P)) : list (sevent (I P)) :=
    [ERcpts (I P) (num g) rs; ETxs (I P) (num g) txs; ELatest (I P) g; ESet (I P) g; EProof (I P) (h_proof (BlockModel.b_header g))].
  Lemma status_of_store_spec h : Forall (wf_event (I P)) h ->
    status_of_store P h = match latest_at (I P) h, proof_at (I P) h with
      | Some b, Some pf => Ok (Status_ (block_hash P b) (num b) (h_state_root (BlockModel.b_header b)) pf) | _, _ => Err end.
  Proof using.
    intros W. unfold status_of_store. destruct (C32_latest (I P) (ERestart (I P) :: h)) as (L & _ & PR); [by apply Forall_cons|].
    cbn [srun sstep latest_at proof_at] in L, PR. rewrite L, PR. destruct (latest_at (I P) h); [|done]. by destruct (proof_at (I P) h).
  Qed.
  Theorem C38_genesis_starts : forall g txs rs wal, typed -> num g = 0 ->
    exists n, boot P (genesis_store g txs rs) wal = Ok n /\ start n /\ st_last (nd_status P n) = 0 /\ st_prev_hash (nd_status P n) = block_hash P g.
  Proof using.
    intros g txs rs wal [TY1 TY2] NG.
    assert (W : Forall (wf_event (I P)) (genesis_store g txs rs)).
    { unfold genesis_store. rewrite NG. repeat (apply Forall_cons; split); try done.
      - split; [done|]. apply Forall_forall. intros x _. apply TY2.
      - split; [done|]. apply Forall_forall. intros x _. apply TY1.
      - cbn. by rewrite NG.
      - cbn. by rewrite NG. }
    unfold boot. rewrite (status_of_store_spec _ W). cbn [latest_at proof_at genesis_store].
    eexists. split; [reflexivity|]. rewrite NG. split; [|done]. split; [done|]. split.
    - by apply Forall_cons.
    - cbn [nd_store]. unfold genesis_store. repeat split; try done.
    - unfold tip, front. cbn [nd_tasks nd_status st_last st_prev_hash nd_store].
      assert (AT : forall m, at_ (ERestart (I P) :: genesis_store g txs rs) m = if decide (num g = m) then Some g else None) by done.
      split; [split|split; [done|]].
      + intros m M. exists g. rewrite AT. rewrite decide_True by lia. split; [done|lia].
      + intros m M. rewrite AT. by rewrite decide_False by lia.
      + intros m a b M. lia.
      + exists g. rewrite AT. by rewrite decide_True.
  Qed.

  (* ---------------------------------------------------------------------- *)
  (** * C40 *)
  Definition booted_as (h : list (sevent (I P))) (b : BlockModel.block) (pf : proof) : Prop :=
    status_of_store P h = Ok (Status_ (block_hash P b) (num b) (h_state_root (BlockModel.b_header b)) pf).

  (** Consensus path: a crash after the proof is written and before the block is leaves the new proof with the old block. *)
  Theorem C40_consensus_crash_partial : forall n stopped c p pf full b l r b0 pf0 j, typed -> Forall (wf_event (I P)) (nd_store P n) -> num b < 2 ^ 64 ->
    plan_commit P n stopped c p pf full = PWrite P b pf l r ->
    latest_at (I P) (nd_store P n) = Some b0 -> proof_at (I P) (nd_store P n) = Some pf0 ->
    let h := crashed_store P n (VCommit P stopped c p pf full) j in
    (j = 0%nat -> booted_as h b0 pf0) /\ ((1 <= j <= 4)%nat -> booted_as h b0 pf) /\ ((5 <= j)%nat -> booted_as h b pf).
  Proof using.
    intros n st c p pf f b l r b0 pf0 j [TY1 TY2] W NB PL LA PA. cbn. rewrite PL.
    assert (WW : Forall (wf_event (I P)) (writes P (nd_store P n) (take j (commit_writes P b pf l r)))).
    { assert (A : Forall (wf_event (I P)) (commit_writes P b pf l r)).
      { unfold commit_writes. repeat (apply Forall_cons; split); try done.
        - split; [done|]. apply Forall_forall. intros x _. apply TY1.
        - split; [done|]. apply Forall_forall. intros x _. apply TY2. }
      apply (Forall_take _ j) in A. unfold writes. revert A W. generalize (take j (commit_writes P b pf l r)), (nd_store P n). clear.
      intros q. induction q as [|e q IH]; intros h A W; cbn; [done|]. apply Forall_cons in A as [? ?]. apply IH; [done|]. by apply Forall_cons. }
    unfold booted_as. rewrite (status_of_store_spec _ WW). clear WW. unfold commit_writes, writes.
    do 6 (destruct j as [|j]; [cbn [take fold_left latest_at proof_at]; rewrite ?LA, ?PA; split; [|split]; intros J; try lia; reflexivity|]).
    cbn [take fold_left latest_at proof_at]. split; [|split]; intros J; try lia; reflexivity.
  Qed.
  (** Synchronisation path: what is stored is the proof inside the new header, that is of the previous block. *)
  Theorem C40_sync_crash_partial : forall n k i rm cur target agent b l r b0 pf0 j, typed -> Forall (wf_event (I P)) (nd_store P n) -> num b < 2 ^ 64 ->
    nd_tasks P n !! k = Some (TRun rm cur target agent) -> cur < target -> sync_plan P n cur agent i = Ok (b, l, r) ->
    latest_at (I P) (nd_store P n) = Some b0 -> proof_at (I P) (nd_store P n) = Some pf0 ->
    let h := crashed_store P n (VTask P k (Some i)) j in let pf := h_proof (BlockModel.b_header b) in
    ((j <= 2)%nat -> booted_as h b0 pf0) /\ ((3 <= j <= 4)%nat -> booted_as h b0 pf) /\ ((5 <= j)%nat -> booted_as h b pf).
  Proof using.
    intros n k i rm cur ta ag b l r b0 pf0 j [TY1 TY2] W NB T CT SP LA PA. cbn. rewrite T. apply N.ltb_lt in CT. rewrite CT, SP.
    assert (WW : Forall (wf_event (I P)) (writes P (nd_store P n) (take j (sync_writes P b l r)))).
    { assert (A : Forall (wf_event (I P)) (sync_writes P b l r)).
      { unfold sync_writes. repeat (apply Forall_cons; split); try done.
        - split; [done|]. apply Forall_forall. intros x _. apply TY1.
        - split; [done|]. apply Forall_forall. intros x _. apply TY2. }
      apply (Forall_take _ j) in A. unfold writes. revert A W. generalize (take j (sync_writes P b l r)), (nd_store P n). clear.
      intros q. induction q as [|e q IH]; intros h A W; cbn; [done|]. apply Forall_cons in A as [? ?]. apply IH; [done|]. by apply Forall_cons. }
    unfold booted_as. rewrite (status_of_store_spec _ WW). clear WW. unfold sync_writes, writes.
    do 6 (destruct j as [|j]; [cbn [take fold_left latest_at proof_at]; rewrite ?LA, ?PA; split; [|split]; intros J; try lia; reflexivity|]).
    cbn [take fold_left latest_at proof_at]. split; [|split]; intros J; try lia; reflexivity.
  Qed.
  (** A synchronisation step that completes has made all its writes. *)
  Lemma sync_all_writes n k i : nd_store P (task_step P n k (Some i)) = crashed_store P n (VTask P k (Some i)) 5.
  Proof using.
    unfold task_step, crashed_store. destruct (nd_tasks P n !! k) as [[r|r|r cu ta ag]|]; [by destruct (_ =? _)| |  |done].
    - destruct (nd_commit_lock P n); [done|]. destruct (_ <=? _); [done|]. by destruct (_ <=? _).
    - destruct (cu <? ta); [|done]. by destruct (sync_plan P n cu ag i) as [[[b txs] x]| |].
  Qed.
  (** A node whose proof is not for its last block cannot propose the next one, whatever its mempool holds. *)
  Theorem C40_mismatch_cannot_propose : forall n i, pf_number (st_proof (nd_status P n)) <> st_last (nd_status P n) ->
    forall p, (get_proposal P n (st_last (nd_status P n) + 1) i).2 <> Ok p.
  Proof using.
    intros n i NE p. unfold get_proposal. destruct (_ <=? _); [done|].
    destruct (N.eqb_spec (st_last (nd_status P n) + 1) (pf_number (st_proof (nd_status P n)) + 1)); [lia|]. cbn. by destruct (_ =? 0).
  Qed.
  (** Every completed synchronisation step leaves such a store, unless the synchronised block is the first one. *)
  Theorem C40_after_sync : forall n k i rm cur target agent b l r b0 pf0, typed -> Forall (wf_event (I P)) (nd_store P n) -> num b < 2 ^ 64 ->
    nd_tasks P n !! k = Some (TRun rm cur target agent) -> cur < target -> sync_plan P n cur agent i = Ok (b, l, r) ->
    latest_at (I P) (nd_store P n) = Some b0 -> proof_at (I P) (nd_store P n) = Some pf0 ->
    (forall x, block_by_number P (store P n) (num b - 1) = Ok x -> num x = num b - 1) -> 1 < num b ->
    exists st, status_of_store P (crashed_store P n (VTask P k (Some i)) 5) = Ok st /\ st_last st = num b /\ pf_number (st_proof st) = num b - 1.
  Proof using.
    intros n k i rm cur ta ag b l r b0 pf0 TY W NB T CT SP LA PA PV N1.
    destruct (C40_sync_crash_partial n k i rm cur ta ag b l r b0 pf0 5 TY W NB T CT SP LA PA) as (_ & _ & B). specialize (B ltac:(lia)).
    eexists. split; [exact B|]. cbn [st_last st_proof]. split; [done|].
    destruct (C39_executed _ _ _ _ _ _ _ SP) as (_ & V & _). apply C39_verified in V as (_ & prev & BP & _ & _ & _ & _ & VP & _).
    specialize (PV _ BP). revert VP. unfold verify_proof. rewrite PV. destruct (N.eqb_spec (num b - 1) 0); [lia|].
    destruct (N.eqb_spec (num b - 1) (pf_number (h_proof (BlockModel.b_header b)))) as [->|]; done.
  Qed.

  (* ---------------------------------------------------------------------- *)
  (** * C59 *)
  Lemma rebuilt p r : with_state_root (BlockModel.b_header (new_block p r)) (p_prev_state_root p) (b_tx_hashes (new_block p r)) = p.
  Proof using. by destruct p. Qed.
  (** If the proposal carries its parent's state root, a quorum proof of the proposal is a valid proof of the committed block. *)
  Theorem C59_extendable_partial : forall s p r pf prev m voters, 0 < p_number p -> pf_number pf = p_number p -> pf_block_hash pf = proposal_hash P p ->
    block_by_number P s (p_number p - 1) = Ok prev -> p_prev_state_root p = h_state_root (BlockModel.b_header prev) ->
    metadata_at P s (p_number p) = Ok m -> m_start m <= p_number p <= m_end m ->
    extract P (map v_pub (m_verifiers m)) (pf_bitmap pf) = Some voters ->
    NoDup (map v_pub (m_verifiers m)) -> NoDup voters -> (forall x, x ∈ voters -> x ∈ map v_pub (m_verifiers m)) -> 3 * sumw (m_verifiers m) < 2 ^ 64 ->
    2 * sumw (m_verifiers m) < 3 * wsum (fun v => bool_decide (v_pub v ∈ voters)) (m_verifiers m) ->
    agg_verify P (digest P (vote_bytes P (pf_number pf) (pf_round pf) (pf_block_hash pf)))
      (map v_bls (filter (fun v => v_pub v ∈ voters) (m_verifiers m))) (pf_signature pf) = true ->
    verify_proof P s (new_block p r) pf = Ok ().
  Proof using.
    intros s p r pf prev m vs N0 PN PH B SR M [R1 R2] X ND NV IN LT Q A. unfold verify_proof. cbn zeta.
    change (num (new_block p r)) with (p_number p). destruct (N.eqb_spec (p_number p) 0); [lia|]. rewrite PN, N.eqb_refl. cbn [negb]. rewrite B.
    rewrite <- SR, rebuilt, PH. rewrite (proj2 (beqb_eq _ _) eq_refl). cbn [negb]. rewrite M. apply N.leb_le in R1, R2. rewrite R1, R2. cbn [negb andb]. rewrite X.
    rewrite (verify_weight_accepts _ _ ND NV IN LT Q). rewrite <- PH, <- PN. unfold signer_keys. by rewrite A.
  Qed.
  (** Own proposals do carry it. *)
  Theorem C59_own_proposals : forall n next i p, (get_proposal P n next i).2 = Ok p ->
    p_prev_state_root p = st_root (nd_status P n) /\ p_prev_hash p = st_prev_hash (nd_status P n) /\ p_number p = next /\ p_proof p = st_proof (nd_status P n).
  Proof using.
    intros n next i p. unfold get_proposal. destruct (_ <=? _); [done|]. destruct (negb _); [by destruct (_ =? 0)|]. intros [= <-]. done.
  Qed.
End Props.

(* ------------------------------------------------------------------------ *)
(** * A small network: four validators, one honest chain, and the witnesses *)
(** Equality by computation. *)
Ltac vmr := lazymatch goal with |- ?a = ?b => exact (@eq_refl _ b <: a = b) end.
Definition x_digest (b : bytes) : bytes := be_fixed 32 (fold_left (fun a x => (a * 257 + x + 1) mod 2147483647) b 7).
Definition x_validators : list validator := ex_validators.
(** one byte per validator selects it *)
Definition x_extract (l : list bytes) (bm : bytes) : option (list bytes) :=
  if bool_decide (length l = length bm) then Some (map fst (filter (fun p => p.2 = 1) (zip l bm))) else None.
Definition x_vote (h r : N) (x : bytes) : bytes := enc_list [enc_uint h; enc_uint r; enc_str x].
Definition x_sign (hash : bytes) (keys : list bytes) : bytes := x_digest (hash ++ concat keys).
Definition x_exec (root : bytes) (p : proposal) (txs : list N) : outcome exec_resp :=
  Ok (ExecResp_ (x_digest (root ++ txs ++ [7])) (x_digest (txs ++ [8])) (21000 * N.of_nat (length txs)) (repeat 0 256)).
Definition X : params := {|
  digest := x_digest; stx := N; stx_hash := be_fixed 32; rcpt := N; rcpt_hash := be_fixed 32;
  stxs_digest := x_digest; txs_root := fun l => x_digest (concat l);
  enc_txs := fun l => l; dec_txs := fun l => Ok l;
  metadata := fun _ _ => Ok (Meta_ 0 100 x_validators);
  extract := x_extract; vote_bytes := x_vote; agg_verify := fun h k s => beqb s (x_sign h k);
  exec := x_exec; receipts_of := fun _ l _ => l; after_save := fun _ _ => Ok () |}.
Definition no_proof : proof := Proof_ 0 0 (repeat 0 32) [] [].
Definition x_genesis : BlockModel.block :=
  Block_ (Header_ V0 (repeat 0 32) (repeat 0 20) (x_digest [1]) (repeat 0 32) (x_digest []) (repeat 0 32) (repeat 0 256) 100 0 0 30000000 [] 7 no_proof 0 5) [].
Definition x_node (o : outcome (node X)) : node X := match o with Ok n => n | _ => Node X (Status_ [] 0 [] no_proof) [] ∅ [] false false [] end.
Definition x_start : node X := x_node (boot X (genesis_store X x_genesis [] []) ∅).
Definition x_in (now : N) (txs : list N) : propose_input X := ProposeIn X (repeat 9 20) (map (be_fixed 32) txs) txs 0 now [] 30000000 7 5.
Definition x_full (l : list bytes) : outcome (list N) := Ok (map be_val l).
Definition x_ci (now : N) : check_input X := CheckIn X now (fun _ => true) (fun _ _ => true) x_full.
(** a proof by the first two validators (weight 7 of 10) *)
Definition x_proof (p : proposal) (number : N) : proof :=
  let h := x_digest (enc_proposal p) in
  Proof_ number 0 h (x_sign (x_digest (x_vote number 0 h)) [[11];[12]]) [1;1;0;0].
Definition x_get (o : outcome proposal) (d : proposal) : proposal := match o with Ok p => p | _ => d end.
Definition dummy : proposal := Proposal_ V0 [] [] [] [] [] 0 0 0 [] 0 no_proof 0 0 [].
Definition x_commit (n : node X) (c : N) (p : proposal) (pf : proof) : node X := (commit X n false c p pf x_full).1.
Definition p1 := Eval vm_compute in x_get (get_proposal X x_start 1 (x_in 110 [41;42])).2 dummy.
Definition pf1 := Eval vm_compute in x_proof p1 1.
Definition e1 : event X := VCommit X false 1 p1 pf1 x_full.
Definition n1 : node X := x_commit x_start 1 p1 pf1.
Definition p2 := Eval vm_compute in x_get (get_proposal X n1 2 (x_in 120 [43])).2 dummy.
Definition pf2 := Eval vm_compute in x_proof p2 2.
Definition e2 : event X := VCommit X false 2 p2 pf2 x_full.
Definition n2 : node X := x_commit n1 2 p2 pf2.
Definition blk_of (n : node X) (m : N) : BlockModel.block := match block_by_number X (store X n) m with Ok b => b | _ => x_genesis end.
Definition b1 := Eval vm_compute in blk_of n2 1.
Definition b2 := Eval vm_compute in blk_of n2 2.

Lemma X_typed : typed X.
Proof. split; intros t; apply (be_fixed_length 32). Qed.
Lemma X_selects : extract_selects X.
Proof.
  intros l bm vs. cbn. unfold x_extract. case_bool_decide as E; [|done]. intros [= <-].
  revert bm E. induction l as [|x l IH]; intros [|y bm] E; try done.
  assert (E' : length l = length bm) by (cbn in E; lia). specialize (IH bm E'). change (zip (x :: l) (y :: bm)) with ((x, y) :: zip l bm).
  destruct (decide (y = 1)).
  - rewrite filter_cons_True by done. cbn [map fst]. by apply submseteq_skip.
  - rewrite filter_cons_False by done. by apply submseteq_cons.
Qed.
Lemma X_starts : boot X (genesis_store X x_genesis [] []) ∅ = Ok x_start.
Proof. vmr. Qed.
Lemma X_start : start X x_start.
Proof.
  destruct (C38_genesis_starts X x_genesis [] [] ∅ X_typed eq_refl) as (n & B & S & _). rewrite X_starts in B. by injection B as <-.
Qed.

(** Non-vacuity: two heights proposed, checked by another node and committed. *)
Example consensus_chain_example :
  (check_block X x_start 1 (x_digest (enc_proposal p1)) p1 (x_ci 111)).2 = Ok () /\
  (check_block X n1 2 (x_digest (enc_proposal p2)) p2 (x_ci 121)).2 = Ok () /\
  run X x_start [e2; e1] = n2 /\ extending X x_start [e2; e1] /\ st_last (nd_status X n2) = 2 /\
  verify_proof X (store X n2) b1 pf1 = Ok () /\ verify_proof X (store X n2) b2 pf2 = Ok ().
Proof.
  apply conj; [vmr|]. apply conj; [vmr|].
  assert (R1 : run X x_start [e1] = n1) by (vmr).
  apply conj; [vmr|]. apply conj.
  { unfold extending. apply conj; [|apply conj; [|exact Logic.I]].
    - rewrite R1. apply conj; [vmr|intros _; vmr].
    - apply conj; [vmr|intros _; vmr]. }
  apply conj; [vmr|]. apply conj; vmr.
Qed.
(** A second node synchronises both blocks from a peer. *)
Definition f1 : fetch_input X := FetchIn X b1 (fun _ => None) x_full 50 pf1.
Definition f2 : fetch_input X := FetchIn X b2 (fun h => if bool_decide (h = be_fixed 32 43) then Some 43 else None) x_full 50 pf2.
Definition x_sync : list (event X) := [VTask X 0 None; VTask X 0 (Some f2); VAnnounce X 7; VTask X 0 (Some f1); VTask X 0 None; VAnnounce X 2].
Example sync_example : st_last (nd_status X (run X x_start x_sync)) = 2 /\ nd_tasks X (run X x_start x_sync) = [] /\
  block_by_number X (store X (run X x_start x_sync)) 1 = Ok b1 /\ block_by_number X (store X (run X x_start x_sync)) 2 = Ok b2 /\
  map (fun t => match t with TRun r c t _ => Some (r, c, t) | _ => None end) (nd_tasks X (run X x_start (drop 1 x_sync))) = [Some (2, 2, 2)].
Proof.
  apply conj; [vmr|]. apply conj; [vmr|]. apply conj; [vmr|]. apply conj; [vmr|]. vmr.
Qed.

(** C38 fails for an arbitrary proposal: nothing compares the number inside the proposal with the height being decided.
    At height 3 a leader offers block 1 again (parent genesis, genesis proof); the check accepts it, and once it is
    committed the node's height falls from 2 to 1 and the stored block 1 is replaced. *)
Definition p_old : proposal := Eval vm_compute in
  Proposal_ V0 (block_hash X x_genesis) (repeat 6 20) (x_digest [1]) (x_digest (be_fixed 32 99)) (x_digest [99]) 200 1 30000000 [] 7 no_proof 5 0 [be_fixed 32 99].
Definition pf_old : proof := Eval vm_compute in x_proof p_old 3.
Definition n_rewound : node X := x_commit n2 3 p_old pf_old.
Definition b_old : BlockModel.block := Eval vm_compute in match (get_block (I X) (restart (I X) (store X n_rewound)) 1).2 with Ok (Some b) => b | _ => x_genesis end.
Theorem C38_rewind_refuted : exists (h : list (event X)) (p : proposal) (pf : proof) (n' : node X),
  let n := run X x_start h in
  start X x_start /\ extending X x_start h /\ st_last (nd_status X n) = 2 /\
  (check_block X n 3 (proposal_hash X p) p (x_ci 201)).2 = Ok () /\ nd_exempt X n = [] /\
  pf_number pf = 3 /\ pf_block_hash pf = proposal_hash X p /\
  commit X n false 3 p pf x_full = (n', Ok 4) /\ st_last (nd_status X n') = 1 /\
  (exists b, block_by_number X (store X n) 1 = Ok b /\ (get_block (I X) (restart (I X) (store X n')) 1).2 <> Ok (Some b)).
Proof.
  exists [e2; e1], p_old, pf_old, n_rewound. destruct consensus_chain_example as (_ & _ & R & EX & L & _). cbn zeta. rewrite R.
  apply conj; [exact X_start|]. apply conj; [exact EX|]. apply conj; [exact L|]. apply conj; [vmr|].
  apply conj; [vmr|]. apply conj; [vmr|]. apply conj; [vmr|].
  apply conj; [vmr|]. apply conj; [vmr|].
  exists b1. apply conj; [vmr|].
  assert (E : (get_block (I X) (restart (I X) (store X n_rewound)) 1).2 = Ok (Some b_old)) by (vmr).
  rewrite E. intros F. assert (G : h_timestamp (BlockModel.b_header b_old) = h_timestamp (BlockModel.b_header b1)) by congruence.
  apply N.eqb_eq in G. assert (G' : (h_timestamp (BlockModel.b_header b_old) =? h_timestamp (BlockModel.b_header b1)) = false) by vmr. congruence.
Qed.

(** C39 has a gap: the bloom and the gas used of a synchronised block are neither covered by its proof nor compared with the
    execution, so the same proof admits two different blocks at one height. *)
Definition b1_forged : BlockModel.block := Eval vm_compute in
  let h := BlockModel.b_header b1 in
  Block_ (Header_ (h_version h) (h_prev_hash h) (h_proposer h) (h_state_root h) (h_transactions_root h) (h_signed_txs_hash h) (h_receipts_root h)
    (repeat 255 256) (h_timestamp h) (BlockModel.h_number h) 1 (h_gas_limit h) (h_extra_data h) (h_base_fee h) (h_proof h) (h_call_system_script_count h) (h_chain_id h)) (b_tx_hashes b1).
Definition f1_forged : fetch_input X := FetchIn X b1_forged (fun _ => None) x_full 50 pf1.
Theorem C39_forged_header_refuted : exists (b b' : BlockModel.block) (pf : proof) (txs : list N),
  verify_block X (store X x_start) (st_root (nd_status X x_start)) b txs pf = Ok () /\
  verify_block X (store X x_start) (st_root (nd_status X x_start)) b' txs pf = Ok () /\
  block_hash X b <> block_hash X b' /\
  (let n := run X x_start [VTask X 0 (Some f1_forged); VTask X 0 None; VAnnounce X 2] in
   block_by_number X (store X n) 1 = Ok b' /\ map (fun t => match t with TRun r c t _ => Some (r, c, t) | _ => None end) (nd_tasks X n) = [Some (2, 1, 2)]).
Proof.
  exists b1, b1_forged, pf1, [41;42]. apply conj; [vmr|]. apply conj; [vmr|].
  apply conj.
  { intros F. apply beqb_eq in F. assert (G : beqb (block_hash X b1) (block_hash X b1_forged) = false) by vmr. congruence. }
  cbn zeta. apply conj; vmr.
Qed.

(** C40 fails on both paths. *)
Theorem C40_consensus_refuted : exists (h : list (event X)) (e : event X) (j : nat) (n' : node X),
  start X x_start /\ extending X x_start (e :: h) /\
  boot X (crashed_store X (run X x_start h) e j) ∅ = Ok n' /\
  st_last (nd_status X n') = 1 /\ pf_number (st_proof (nd_status X n')) = 2 /\
  (forall i p, (get_proposal X n' 2 i).2 <> Ok p).
Proof.
  exists [e1], e2, 1%nat, (x_node (boot X (crashed_store X n1 e2 1) ∅)).
  assert (R : run X x_start [e1] = n1) by (vmr). rewrite R.
  apply conj; [exact X_start|]. destruct consensus_chain_example as (_ & _ & _ & EX & _). apply conj; [exact EX|].
  apply conj; [vmr|]. apply conj; [vmr|]. apply conj; [vmr|].
  intros i p. set (n' := x_node _).
  assert (L : st_last (nd_status X n') = 1) by (vmr).
  pose proof (C40_mismatch_cannot_propose X n' i) as M. rewrite L in M. apply M.
  intros F. apply N.eqb_eq in F. revert F. assert (G : (pf_number (st_proof (nd_status X n')) =? 1) = false) by vmr. rewrite G. discriminate.
Qed.
Theorem C40_sync_refuted : exists (h : list (event X)) (e : event X) (j : nat) (n' : node X),
  start X x_start /\ extending X x_start (e :: h) /\
  boot X (crashed_store X (run X x_start h) e j) ∅ = Ok n' /\
  nd_store X (run X x_start (e :: h)) = crashed_store X (run X x_start h) e j /\
  st_last (nd_status X n') = 2 /\ pf_number (st_proof (nd_status X n')) = 1 /\
  (forall i p, (get_proposal X n' 3 i).2 <> Ok p).
Proof.
  set (hh := [VTask X 0 (Some f1); VTask X 0 None; VAnnounce X 2]).
  exists hh, (VTask X 0 (Some f2)), 5%nat, (x_node (boot X (crashed_store X (run X x_start hh) (VTask X 0 (Some f2)) 5) ∅)).
  apply conj; [exact X_start|]. apply conj; [by repeat split|].
  apply conj; [vmr|]. apply conj; [exact (sync_all_writes X (run X x_start hh) 0 f2)|]. apply conj; [vmr|]. apply conj; [vmr|].
  intros i p. set (n' := x_node _).
  assert (L : st_last (nd_status X n') = 2) by (vmr).
  pose proof (C40_mismatch_cannot_propose X n' i) as M. rewrite L in M. apply M.
  intros F. apply N.eqb_eq in F. revert F. assert (G : (pf_number (st_proof (nd_status X n')) =? 2) = false) by vmr. rewrite G. discriminate.
Qed.

(** C42 does not hold for a node's own proposals: with a clock behind the parent's time it proposes, and accepts, an earlier time. *)
Theorem C42_own_refuted : exists (n n' : node X) (i : propose_input X) (p : proposal) (prev : BlockModel.block),
  n = run X x_start [e2; e1] /\ get_proposal X n 3 i = (n', Ok p) /\ (check_block X n' 3 (proposal_hash X p) p (x_ci 121)).2 = Ok () /\
  block_by_number X (store X n') 2 = Ok prev /\ p_timestamp p < h_timestamp (BlockModel.b_header prev).
Proof.
  exists n2, (get_proposal X n2 3 (x_in 50 [])).1, (x_in 50 []), (x_get (get_proposal X n2 3 (x_in 50 [])).2 dummy), b2.
  destruct consensus_chain_example as (_ & _ & R & _). apply conj; [by rewrite R|].
  apply conj; [vmr|]. apply conj; [vmr|]. apply conj; [vmr|]. apply N.ltb_lt. vmr.
Qed.

(** C59 fails when the proposal names another previous state root: no check looks at that field, the block is committed, and
    from then on no proof whatever of the proposal verifies for it, so no later block passes the checks of any node. *)
Definition p2_bad : proposal := Eval vm_compute in
  Proposal_ (p_version p2) (p_prev_hash p2) (p_proposer p2) (repeat 3 32) (p_transactions_root p2) (p_signed_txs_hash p2) (p_timestamp p2) (p_number p2)
    (p_gas_limit p2) (p_extra_data p2) (p_base_fee p2) (p_proof p2) (p_chain_id p2) (p_call_system_script_count p2) (p_tx_hashes p2).
Definition pf2_bad : proof := Eval vm_compute in x_proof p2_bad 2.
Definition n2_bad : node X := x_commit n1 2 p2_bad pf2_bad.
Definition b2_bad : BlockModel.block := Eval vm_compute in blk_of n2_bad 2.
Theorem C59_halt_refuted : exists (h : list (event X)) (p : proposal) (pf : proof) (n' : node X) (b : BlockModel.block),
  start X x_start /\ extending X x_start h /\ let n := run X x_start h in
  (check_block X n 2 (proposal_hash X p) p (x_ci 121)).2 = Ok () /\ nd_exempt X n = [] /\
  commit X n false 2 p pf x_full = (n', Ok 3) /\ block_by_number X (store X n') 2 = Ok b /\
  (forall pf', pf_block_hash pf' = proposal_hash X p -> verify_proof X (store X n') b pf' <> Ok ()) /\
  (forall q i next hash, p_number q = 3 -> pf_block_hash (p_proof q) = proposal_hash X p -> hash ∉ nd_exempt X n' -> (check_block X n' next hash q i).2 <> Ok ()).
Proof.
  exists [e1], p2_bad, pf2_bad, n2_bad, b2_bad.
  assert (R : run X x_start [e1] = n1) by (vmr).
  destruct consensus_chain_example as (_ & _ & _ & (_ & EX) & _).
  apply conj; [exact X_start|]. apply conj; [exact EX|]. cbn zeta. rewrite R.
  apply conj; [vmr|]. apply conj; [vmr|]. apply conj; [vmr|].
  assert (BN : block_by_number X (store X n2_bad) 2 = Ok b2_bad) by (vmr). apply conj; [exact BN|].
  assert (VP : forall pf', pf_block_hash pf' = proposal_hash X p2_bad -> verify_proof X (store X n2_bad) b2_bad pf' <> Ok ()).
  { intros pf' E. unfold verify_proof. assert (Z : (BlockModel.h_number (BlockModel.b_header b2_bad) =? 0) = false) by vmr. rewrite Z. destruct (negb (_ =? _)); [done|].
    assert (B1 : block_by_number X (store X n2_bad) (BlockModel.h_number (BlockModel.b_header b2_bad) - 1) = Ok b1) by (vmr).
    rewrite B1, E.
    assert (NE : beqb (proposal_hash X (with_state_root (BlockModel.b_header b2_bad) (h_state_root (BlockModel.b_header b1)) (b_tx_hashes b2_bad))) (proposal_hash X p2_bad) = false)
      by (vmr).
    rewrite NE. done. }
  apply conj; [exact VP|]. intros q i next hash NQ PQ NE. unfold check_block. destruct (_ <=? _); [done|]. destruct (negb _); [by destruct (_ =? 0)|]. destruct (negb _); [done|].
  rewrite bool_decide_false by done. unfold inner_check. destruct (verify_block_header _ _ _); [|done|done]. rewrite NQ. change (3 - 1) with 2. rewrite BN.
  destruct (negb _); [done|]. specialize (VP _ PQ). destruct (verify_proof X (store X n2_bad) b2_bad (p_proof q)) as [[]| |]; [exfalso; apply VP; reflexivity|discriminate|discriminate].
Qed.
(** The honest proposal at the same height meets the hypotheses of C59_extendable_partial. *)
Example C59_example : p_prev_state_root p2 = h_state_root (BlockModel.b_header b1) /\ pf_block_hash pf2 = proposal_hash X p2 /\
  verify_proof X (store X n2) (new_block p2 (ExecResp_ (h_state_root (BlockModel.b_header b2)) (h_receipts_root (BlockModel.b_header b2)) 21000 (repeat 0 256))) pf2 = Ok ().
Proof. apply conj; [vmr|]. apply conj; vmr. Qed.
(** The hypotheses of the crash theorems on the same chain. *)
Example C40_example : match plan_commit X n1 false 2 p2 pf2 x_full, latest_at (I X) (nd_store X n1), proof_at (I X) (nd_store X n1) with
  | PWrite _ b pf _ _, Some b0, Some pf0 => (BlockModel.h_number (BlockModel.b_header b) =? 2) && (pf_number pf =? 2) &&
      (BlockModel.h_number (BlockModel.b_header (b0 : BlockModel.block)) =? 1) && (pf_number (pf0 : proof) =? 1)
  | _, _, _ => false end = true.
Proof. vmr. Qed.

Print Assumptions C38_unbroken_partial.
Print Assumptions C38_genesis_starts.
Print Assumptions C38_rewind_refuted.
Print Assumptions C39_verified.
Print Assumptions C39_executed.
Print Assumptions C39_linked_partial.
Print Assumptions C39_checked_extends.
Print Assumptions C39_forged_header_refuted.
Print Assumptions C40_consensus_crash_partial.
Print Assumptions C40_sync_crash_partial.
Print Assumptions C40_mismatch_cannot_propose.
Print Assumptions C40_after_sync.
Print Assumptions C40_consensus_refuted.
Print Assumptions C40_sync_refuted.
Print Assumptions C42_own_refuted.
Print Assumptions C59_extendable_partial.
Print Assumptions C59_own_proposals.
Print Assumptions C59_halt_refuted.
