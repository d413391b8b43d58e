(** C76: catching up from an honest peer. *)
From Verif Require Import Bytes BytesProofs Rlp TxModel WalModel StorageModel StorageProofs StorageProps BlockModel ConsensusModel ConsensusProofs ConsensusProps ConsensusProps2 SyncModel.
From stdpp Require Import base gmap list.
From Coq Require Import Lia.
Local Open Scope N_scope.

(* ------------------------------------------------------------------------ *)
(** * Headers of a store in which no block is replaced *)
Section Store.
  Variable I : iface.
  Notation num b := (StorageModel.h_number I (StorageModel.b_header I b)).

  Lemma bstable_header h n : bstable I h -> header_at I h n = option_map (StorageModel.b_header I) (block_at I h n).
  Proof using.
    induction h as [|e h IH]; intros S; [done|]. destruct S as [K S]. specialize (IH S).
    destruct e; cbn in *; try done; try (by destruct (decide _)).
    destruct (decide (_ = n)) as [->|]; [|done]. rewrite IH. destruct (block_at I h n) as [b|] eqn:B; [|done].
    specialize (K n b B). by rewrite decide_True in K.
  Qed.
  Definition hfits (h : list (sevent I)) (s : sstate I) : Prop := forall n y, c_headers I (s_cache I s) !! n = Some y -> header_at I h n = Some y.
  Lemma get_block_headers (s : sstate I) n : c_headers I (s_cache I (get_block I s n).1) = c_headers I (s_cache I s).
  Proof using. unfold get_block. destruct (c_blocks _ _ !! n); [done|]. destruct (read_block _ _) as [[]| |]; done. Qed.
  Lemma get_code_headers (s : sstate I) x : c_headers I (s_cache I (get_code_by_hash I s x).1) = c_headers I (s_cache I s).
  Proof using. unfold get_code_by_hash. destruct (c_codes _ _ !! x); [done|]. by destruct (d_code _ _ !! _). Qed.
  Lemma srun_hfits h : Forall (wf_event I) h -> bstable I h -> hfits h (srun I h).
  Proof using.
    induction h as [|e h IH]; intros W ST.
    { intros n b; cbn; by rewrite lookup_empty. }
    apply Forall_cons in W as [We W]. pose proof ST as ST0. destruct ST as [K ST]. specialize (IH W ST).
    pose proof (srun_refines I h W) as R. cbn [srun]. generalize dependent (srun I h). intros s F R.
    assert (G : hfits h (sstep I s e) -> hfits (e :: h) (sstep I s e)).
    { intros B n y C. apply B in C. rewrite (bstable_header (e :: h) n ST0). rewrite (bstable_header h n ST) in C.
      destruct (block_at I h n) as [b|] eqn:E; [|done]. rewrite (K n b E). done. }
    apply G. clear G K.
    assert (C : forall s', c_headers I (s_cache I s') = c_headers I (s_cache I s) -> hfits h s').
    { intros s' E1 n y; rewrite ?E1; apply F. }
    destruct e as [b|b|b|n|n l|n l|a x c|p|n|n|x|x|x|x|x|x|k|]; cbn [sstep]; try (by apply C); cbn in We.
    - apply C, get_block_headers.
    - unfold get_block_header. destruct (c_headers _ _ !! n) as [y|] eqn:CH; [by apply C|]. destruct (d_header _ _ !! _) as [y|] eqn:D.
      + intros m z. cbn. destruct (decide (n = m)) as [<-|NE].
        * rewrite lookup_insert. intros [= <-]. by rewrite <- (rf_header _ _ _ R n We).
        * rewrite lookup_insert_ne by done. apply F.
      + pose proof (get_block_headers s n) as G. destruct (get_block I s n) as [s' [o| |]]; by apply C.
    - unfold get_number. destruct (c_nums _ _ !! x); [by apply C|]. destruct (d_num _ _ !! _); by apply C.
    - unfold get_block_by_hash. assert (G : c_headers I (s_cache I (get_number I s x).1) = c_headers I (s_cache I s)).
      { unfold get_number. destruct (c_nums _ _ !! x); [done|]. by destruct (d_num _ _ !! _). }
      destruct (get_number I s x) as [s' [n|]]; cbn in G; [|by apply C].
      apply C. by rewrite get_block_headers.
    - unfold get_tx. destruct (c_txs _ _ !! x); [by apply C|]. destruct (d_num _ _ !! _); [|by apply C]. destruct (d_tx _ _ !! _); by apply C.
    - unfold get_receipt. destruct (c_rcpts _ _ !! x); [by apply C|]. destruct (d_num _ _ !! _); [|by apply C]. destruct (d_rcpt _ _ !! _); by apply C.
    - apply C, get_code_headers.
    - unfold get_code_by_address. destruct (d_code _ _ !! _) as [y|]; [|by apply C]. destruct (_ =? _)%nat; [|by apply C].
      pose proof (get_code_headers s y) as G. destruct (get_code_by_hash I s y). by apply C.
    - destruct k as [k|k|k|k|k|k]; try (by apply C); intros m d; cbn;
        (destruct (decide (k = m)) as [<-|N]; [by rewrite lookup_delete|]; rewrite lookup_delete_ne by done; apply F).
    - intros m d; cbn; by rewrite lookup_empty.
  Qed.
  Lemma srun_get_header h n : Forall (wf_event I) h -> bstable I h -> n < 2 ^ 64 -> (get_block_header I (srun I h) n).2 = Ok (header_at I h n).
  Proof using.
    intros W S L. pose proof (srun_refines I h W) as R. unfold get_block_header.
    destruct (c_headers _ _ !! n) as [y|] eqn:C; [cbn; by rewrite (srun_hfits h W S n y C)|].
    rewrite (rf_header _ _ _ R n L). destruct (header_at I h n) as [y|] eqn:E; [done|].
    pose proof (srun_get_block I h n W S L) as G. destruct (get_block I (srun I h) n) as [s' o]. cbn in G. subst o.
    rewrite (bstable_header h n S) in E. by destruct (block_at I h n).
  Qed.
End Store.

Section Props.
  Variable P : params.
  Notation num b := (BlockModel.h_number (BlockModel.b_header b)).
  Notation at_ h m := (block_at (I P) h m : option BlockModel.block).

  (* ---------------------------------------------------------------------- *)
  (** * Putting the transactions of a block together *)
  Definition txs_of (T : list (stx P)) (c : list bytes) : list (stx P) := omap (fun x => find (fun t => bool_decide (stx_hash P t = x)) T) c.

  Section Rich.
    Variable T : list (stx P).
    Notation L := (map (stx_hash P) T).
    Hypothesis ND : NoDup L.
    Lemma L_lookup i t : T !! i = Some t -> L !! i = Some (stx_hash P t).
    Proof using. intros E. change L with (stx_hash P <$> T). by rewrite list_lookup_fmap, E. Qed.
    Lemma L_lookup_inv i x : L !! i = Some x -> exists t, T !! i = Some t /\ stx_hash P t = x.
    Proof using. change L with (stx_hash P <$> T). rewrite list_lookup_fmap. destruct (T !! i) as [t|]; [|done]. intros [= <-]. by exists t. Qed.
    Lemma T_inj t u : t ∈ T -> u ∈ T -> stx_hash P t = stx_hash P u -> t = u.
    Proof using ND.
      intros A B E. apply elem_of_list_lookup in A as [i A]. apply elem_of_list_lookup in B as [j B].
      pose proof (L_lookup i t A) as A'. pose proof (L_lookup j u B) as B'. rewrite E in A'.
      pose proof (NoDup_lookup _ _ _ _ ND A' B'). subst j. congruence.
    Qed.
    Lemma find_T t : t ∈ T -> find (fun u => bool_decide (stx_hash P u = stx_hash P t)) T = Some t.
    Proof using ND.
      intros A. destruct (find _ T) as [u|] eqn:F.
      - apply find_some in F as [F1 F2]. apply bool_decide_eq_true in F2. apply elem_of_list_In in F1. f_equal. by apply T_inj.
      - exfalso. apply elem_of_list_In in A. pose proof (find_none _ _ F t A) as FF. cbn in FF. by rewrite bool_decide_true in FF.
    Qed.
    Lemma txs_of_hashes c : (forall x, x ∈ c -> x ∈ L) -> map (stx_hash P) (txs_of T c) = c /\ forall t, t ∈ txs_of T c -> t ∈ T.
    Proof using ND.
      induction c as [|x c IH]; intros H.
      { split; [done|]. intros t E. by apply elem_of_nil in E. }
      destruct IH as [IH1 IH2]; [intros y Y; apply H, elem_of_cons; by right|].
      assert (X : x ∈ L) by (apply H, elem_of_cons; by left). apply elem_of_list_fmap in X as (t & -> & X). unfold txs_of in *. cbn.
      rewrite (find_T t X). cbn. split; [by f_equal|]. intros u U. apply elem_of_cons in U as [->|U]; [done|by apply IH2].
    Qed.

    Definition inv (k : nat) (res : gmap nat (stx P)) (missing : gmap bytes nat) : Prop :=
      forall i t, (i < k)%nat -> T !! i = Some t ->
        missing !! stx_hash P t = Some i \/ (missing !! stx_hash P t = None /\ res !! i = Some t).

    Lemma split_spec mem (MEM : forall x u t, mem x = Some u -> t ∈ T -> stx_hash P t = x -> u = t) :
      forall l pre res missing ml, T = pre ++ l -> inv (length pre) res missing ->
        (forall x, missing !! x <> None <-> x ∈ ml) -> NoDup ml -> (forall x, x ∈ ml -> x ∈ map (stx_hash P) pre) ->
        exists res' missing' ml', split_mem P mem (map (stx_hash P) l) (length pre) res missing ml = (res', missing', ml') /\
          inv (length T) res' missing' /\ (forall x, missing' !! x <> None <-> x ∈ ml') /\ NoDup ml' /\ (forall x, x ∈ ml' -> x ∈ L).
    Proof using ND.
      induction l as [|t l IH]; intros pre res missing ml E I2 M N SS.
      - exists res, missing, ml. rewrite app_nil_r in E. cbn [map split_mem]. split; [done|]. rewrite E. split; [done|]. split; [done|]. split; [done|]. done.
      - assert (TK : T !! length pre = Some t) by (rewrite E; apply list_lookup_middle; done).
        assert (FR : stx_hash P t ∉ map (stx_hash P) pre).
        { intros F. pose proof ND as ND'. rewrite E, map_app in ND'. apply NoDup_app in ND' as (_ & ND' & _). apply (ND' _ F). cbn. apply elem_of_cons. by left. }
        assert (E' : T = (pre ++ [t]) ++ l) by (by rewrite <- app_assoc).
        assert (LP : length (pre ++ [t]) = S (length pre)) by (rewrite app_length; cbn; lia).
        assert (MN : missing !! stx_hash P t = None).
        { destruct (missing !! stx_hash P t) eqn:X; [|done]. exfalso. apply FR, SS, M. by rewrite X. }
        cbn [map split_mem]. destruct (mem (stx_hash P t)) as [u|] eqn:ME.
        + assert (u = t) as ->.
          { apply (MEM _ _ t ME); [|done]. apply elem_of_list_lookup. by eexists. }
          rewrite <- LP. apply IH; [done| |done|done|].
          * rewrite LP. intros i v Hi V. destruct (decide (i = length pre)) as [->|NE].
            -- right. rewrite TK in V. injection V as <-. split; [done|by rewrite lookup_insert].
            -- destruct (I2 i v) as [A|[A B]]; [lia|done|by left|]. right. split; [done|]. by rewrite lookup_insert_ne by lia.
          * intros x X. rewrite map_app. apply elem_of_app. left. by apply SS.
        + rewrite <- LP. apply IH; [done| | | |].
          * rewrite LP. intros i v Hi V. destruct (decide (i = length pre)) as [->|NE].
            -- left. rewrite TK in V. injection V as <-. by rewrite lookup_insert.
            -- assert (HN : stx_hash P t <> stx_hash P v).
               { intros HE. apply FR. rewrite HE. apply elem_of_list_fmap. exists v. split; [done|]. apply elem_of_list_lookup. exists i.
                 rewrite E in V. rewrite lookup_app_l in V by lia. done. }
               rewrite lookup_insert_ne by done. apply I2; [lia|done].
          * intros x. destruct (decide (x = stx_hash P t)) as [->|NE].
            -- rewrite lookup_insert. split; [intros _; apply elem_of_app; right; by apply elem_of_list_singleton|done].
            -- rewrite lookup_insert_ne by done. rewrite elem_of_app, elem_of_list_singleton, M. split; [by left|by intros [?|?]].
          * apply NoDup_app. split; [done|]. split; [|apply NoDup_singleton]. intros x X Y. apply elem_of_list_singleton in Y as ->. by apply FR, SS.
          * intros x X. rewrite map_app. apply elem_of_app. apply elem_of_app in X as [X|X]; [left; by apply SS|right]. cbn. by apply elem_of_list_singleton in X as ->; apply elem_of_list_singleton.
    Qed.

    Lemma place_spec : forall ts res missing, inv (length T) res missing -> NoDup (map (stx_hash P) ts) ->
      (forall t, t ∈ ts -> t ∈ T /\ missing !! stx_hash P t <> None) ->
      exists res' missing', place P ts res missing = Ok (res', missing') /\ inv (length T) res' missing' /\
        forall x, missing' !! x <> None <-> missing !! x <> None /\ x ∉ map (stx_hash P) ts.
    Proof using ND.
      induction ts as [|t ts IH]; intros res missing I2 N H; cbn [place].
      - exists res, missing. split; [done|]. split; [done|]. intros x. cbn. split; [intros X; split; [done|apply not_elem_of_nil]|by intros []].
      - cbn in N. apply NoDup_cons in N as [NT N]. destruct (H t) as [HT HM]; [apply elem_of_cons; by left|].
        destruct (missing !! stx_hash P t) as [i|] eqn:M; [|done].
        apply elem_of_list_lookup in HT as [j J]. pose proof (lookup_lt_Some _ _ _ J) as LJ.
        assert (i = j) as ->. { destruct (I2 j t LJ J) as [X|[X _]]; congruence. }
        destruct (IH (<[j := t]> res) (delete (stx_hash P t) missing)) as (res' & missing' & E & I3 & S).
        + intros i v Hi V. destruct (decide (i = j)) as [->|NE].
          * right. rewrite J in V. injection V as <-. by rewrite lookup_delete, lookup_insert.
          * assert (HN : stx_hash P t <> stx_hash P v).
            { intros HE. apply NE. pose proof (L_lookup i v V) as A. pose proof (L_lookup j t J) as B. rewrite HE in B. exact (NoDup_lookup _ _ _ _ ND A B). }
            rewrite lookup_delete_ne by done. destruct (I2 i v Hi V) as [A|[A B]]; [by left|right]. split; [done|]. by rewrite lookup_insert_ne by done.
        + done.
        + intros u U. destruct (H u) as [HU MU]; [apply elem_of_cons; by right|]. split; [done|]. rewrite lookup_delete_ne; [done|].
          intros HE. apply NT. rewrite HE. apply elem_of_list_fmap. by exists u.
        + exists res', missing'. split; [done|]. split; [done|]. intros x. rewrite S. cbn. rewrite not_elem_of_cons.
          destruct (decide (x = stx_hash P t)) as [->|NE]; [rewrite lookup_delete; split; [by intros [? _]|by intros (_ & ? & _)]|].
          rewrite lookup_delete_ne by done. split; [intros []; done|intros (? & _ & ?); done].
    Qed.

    Lemma pull_spec remote : (forall c, NoDup c -> (forall x, x ∈ c -> x ∈ L) -> remote c = Ok (txs_of T c)) ->
      forall cs res missing, inv (length T) res missing -> NoDup (concat cs) -> (forall x, x ∈ concat cs -> x ∈ L) ->
      (forall x, missing !! x <> None <-> x ∈ concat cs) ->
      exists res', pull P remote cs res missing = Ok (res', ∅) /\ inv (length T) res' ∅.
    Proof using ND.
      intros RM. induction cs as [|c cs IH]; intros res missing I2 N S M; cbn [pull].
      - assert (missing = ∅) as ->.
        { apply map_eq. intros x. rewrite lookup_empty. destruct (missing !! x) eqn:X; [|done]. exfalso. apply (not_elem_of_nil x). cbn in M. apply M. by rewrite X. }
        by exists res.
      - cbn in N, S, M. apply NoDup_app in N as (N1 & N2 & N3).
        assert (SC : forall x, x ∈ c -> x ∈ L) by (intros x X; apply S, elem_of_app; by left).
        destruct (txs_of_hashes c SC) as [H1 H2]. rewrite (RM c N1 SC).
        destruct (place_spec (txs_of T c) res missing I2) as (res' & missing' & E & I3 & S').
        + by rewrite H1.
        + intros t HT. split; [by apply H2|]. apply M, elem_of_app. left. rewrite <- H1. apply elem_of_list_fmap. by exists t.
        + rewrite E. apply IH; [done|done|intros x X; apply S, elem_of_app; by right|].
          intros x. rewrite S', M, H1, elem_of_app. split; [intros [[?|?] ?]; done|]. intros X. split; [by right|]. intros Y. by apply (N2 x).
    Qed.
    Lemma chunks_concat k : k <> O -> forall f l, (length l <= f)%nat -> concat (chunks f k l) = l.
    Proof using.
      intros K. induction f as [|f IH]; intros l Hl; [destruct l; [done|cbn in Hl; lia]|]. cbn [chunks]. destruct l as [|x l]; [done|].
      cbn [concat]. rewrite IH; [apply take_drop|]. rewrite drop_length. cbn [length] in *. lia.
    Qed.
    Lemma in_order_all (res : gmap nat (stx P)) : forall l s, (forall i t, l !! i = Some t -> res !! (s + i)%nat = Some t) -> omap (fun i => res !! i) (seq s (length l)) = l.
    Proof using.
      induction l as [|t l IH]; intros s H; [done|]. cbn [length seq omap list_omap].
      pose proof (H 0%nat t eq_refl) as H0. rewrite Nat.add_0_r in H0. cbn. rewrite H0. f_equal. apply IH. intros i u U.
      replace (S s + i)%nat with (s + S i)%nat by lia. by apply H.
    Qed.

    (** Whatever part of the block's transactions the mempool has, the rest is fetched and all end up in the order of the block. *)
    Lemma rich_ok number i : num (fi_block P i) = number -> b_tx_hashes (fi_block P i) = L -> fi_chunk P i <> O ->
      (forall x u t, fi_mem P i x = Some u -> t ∈ T -> stx_hash P t = x -> u = t) ->
      (forall c, NoDup c -> (forall x, x ∈ c -> x ∈ L) -> fi_remote P i c = Ok (txs_of T c)) ->
      get_rich_block P number i = Ok (fi_block P i, T).
    Proof using ND.
      intros NB HL CK MEM RM. unfold get_rich_block. cbn zeta. rewrite NB, N.eqb_refl. cbn [negb]. rewrite HL.
      destruct (split_spec (fi_mem P i) MEM T [] ∅ ∅ [] eq_refl) as (res & missing & ml & E & I2 & M & N & S).
      - intros j t J. cbn in J. lia.
      - intros x. rewrite lookup_empty. split; [done|]. intros X. by apply elem_of_nil in X.
      - apply NoDup_nil_2.
      - intros x X. by apply elem_of_nil in X.
      - cbn [length] in E. rewrite E. rewrite bool_decide_false by done.
        assert (CC : concat (chunks (length ml) (fi_chunk P i) ml) = ml) by (by apply chunks_concat).
        destruct (pull_spec (fi_remote P i) RM (chunks (length ml) (fi_chunk P i) ml) res missing I2) as (res' & E' & I3).
        + by rewrite CC.
        + by rewrite CC.
        + by rewrite CC.
        + rewrite E'. rewrite bool_decide_true by done. f_equal. f_equal. unfold in_order. rewrite map_length. apply in_order_all. intros j t J.
          destruct (I3 j t (lookup_lt_Some _ _ _ J) J) as [X|[_ X]]; [by rewrite lookup_empty in X|done].
    Qed.
  End Rich.

  (* ---------------------------------------------------------------------- *)
  (** * A chain that the validators agreed on *)
  (** the block at each height, its transactions, the proof the validators signed for it, and what executing it gives *)
  Record hchain := HChain { hb : N -> BlockModel.block; ht : N -> list (stx P); hp : N -> BlockModel.proof; hr : N -> exec_resp }.
  Notation hdr C m := (BlockModel.b_header (hb C m)).
  Notation root C m := (h_state_root (BlockModel.b_header (hb C m))).

  (** more than two thirds of the weight signed *)
  Definition quorum (m : meta) (pf : BlockModel.proof) : Prop :=
    exists voters, extract P (map v_pub (m_verifiers m)) (pf_bitmap pf) = Some voters /\
      NoDup (map v_pub (m_verifiers m)) /\ NoDup voters /\ (forall x, x ∈ voters -> x ∈ map v_pub (m_verifiers m)) /\
      3 * sumw (m_verifiers m) < 2 ^ 64 /\ 2 * sumw (m_verifiers m) < 3 * wsum (fun v => bool_decide (v_pub v ∈ voters)) (m_verifiers m) /\
      agg_verify P (digest P (vote_bytes P (pf_number pf) (pf_round pf) (pf_block_hash pf)))
        (map v_bls (filter (fun v => v_pub v ∈ voters) (m_verifiers m))) (pf_signature pf) = true.
  (** the proof of height [m], judged by the validators that the metadata contract at state [r] names for [m] *)
  Definition proven (C : hchain) (m : N) (r : bytes) : Prop :=
    pf_number (hp C m) = m /\
    pf_block_hash (hp C m) = proposal_hash P (with_state_root (hdr C m) (root C (m - 1)) (b_tx_hashes (hb C m))) /\
    exists mt, metadata P r m = Ok mt /\ m_start mt <= m <= m_end mt /\ quorum mt (hp C m).
  Record link (C : hchain) (m : N) : Prop := {
    lk_num : num (hb C m) = m;
    lk_prev : h_prev_hash (hdr C m) = block_hash P (hb C (m - 1));
    lk_hashes : b_tx_hashes (hb C m) = map (stx_hash P) (ht C m);
    lk_nodup : NoDup (map (stx_hash P) (ht C m));
    lk_digest : stxs_digest P (ht C m) = h_signed_txs_hash (hdr C m);
    lk_exec : exec P (root C (m - 1)) (with_state_root (hdr C m) (root C (m - 1)) (b_tx_hashes (hb C m))) (ht C m) = Ok (hr C m);
    lk_root : e_state_root (hr C m) = root C m;
    lk_rcpts : e_receipt_root (hr C m) = h_receipts_root (hdr C m);
    lk_proof : proven C m (root C (m - 1));
    lk_parent : 1 < m -> h_proof (hdr C m) = hp C (m - 1) /\ proven C (m - 1) (root C (m - 1)) }.
  Definition honest (C : hchain) (top : N) : Prop := num (hb C 0) = 0 /\ top + 50 < 2 ^ 64 /\ forall m, 0 < m <= top -> link C m.

  (** A store that holds the chain up to [c] and nothing above. *)
  Record holds (C : hchain) (h : list (sevent (I P))) (c : N) : Prop := {
    ho_wf : Forall (wf_event (I P)) h;
    ho_stable : bstable (I P) h;
    ho_blocks : forall m, m <= c -> at_ h m = Some (hb C m);
    ho_none : forall m, c < m -> at_ h m = None;
    ho_latest : latest_at (I P) h = Some (hb C c) }.
  Definition has_txs (C : hchain) (h : list (sevent (I P))) (c : N) : Prop :=
    forall m t, 0 < m <= c -> t ∈ ht C m -> tx_in (I P) h m (stx_hash P t) = Some t.
  (** A peer at height [c] that also has the transactions, and as newest proof that of height [p]. *)
  Definition serves (C : hchain) (h : list (sevent (I P))) (c p : N) : Prop :=
    holds C h c /\ has_txs C h c /\ p <= c /\ pf_number (hp C p) = p /\ proof_at (I P) h = Some (hp C p).

  (** The peer's answers are the chain's. *)
  Theorem C76_served : forall C h c p top m, typed P -> honest C top -> serves C h c p -> 0 < m <= p -> c <= top ->
    serve_block P (srun (I P) h) m = Ok (hb C m) /\ serve_proof P (srun (I P) h) m = Ok (hp C m) /\
    forall q, NoDup q -> (forall x, x ∈ q -> x ∈ b_tx_hashes (hb C m)) -> serve_txs P (srun (I P) h) m q = Ok (txs_of (ht C m) q).
  Proof using.
    intros C h c p top m [TY _] (H0 & HT & HL) (HO & TX & PC & PN & PF) M CT. split; [|split].
    - unfold serve_block. rewrite (srun_get_block (I P) h m (ho_wf _ _ _ HO) (ho_stable _ _ _ HO)) by lia. by rewrite (ho_blocks _ _ _ HO) by lia.
    - unfold serve_proof. destruct (C32_latest (I P) h (ho_wf _ _ _ HO)) as (_ & _ & ->). rewrite PF.
      cbn iota beta. rewrite PN.
      destruct (N.ltb_spec m p) as [LT|GE].
      + rewrite (srun_get_header (I P) h (m + 1) (ho_wf _ _ _ HO) (ho_stable _ _ _ HO)) by lia.
        rewrite (bstable_header (I P) h (m + 1) (ho_stable _ _ _ HO)), (ho_blocks _ _ _ HO) by lia. cbn.
        destruct (lk_parent _ _ (HL (m + 1) ltac:(lia))) as [E _]; [lia|]. rewrite E. by replace (m + 1 - 1) with m by lia.
      + assert (m = p) as -> by lia. rewrite N.eqb_refl. done.
    - intros q N S. unfold serve_txs. pose proof (lk_hashes _ _ (HL m ltac:(lia))) as HH. rewrite HH in S.
      destruct (C34_positional (I P) h m q (ho_wf _ _ _ HO)) as [E _]; [lia| |done|].
      + apply Forall_forall. intros x X. apply S in X. apply elem_of_list_fmap in X as (t & -> & _). apply TY.
      + rewrite E. f_equal. unfold txs_of. pose proof (lk_nodup _ _ (HL m ltac:(lia))) as ND. clear E HH N.
        induction q as [|x q IH]; [done|]. cbn.
        assert (X : x ∈ map (stx_hash P) (ht C m)) by (apply S, elem_of_cons; by left). apply elem_of_list_fmap in X as (t & -> & X).
        rewrite (TX m t) by (done || lia). rewrite (find_T _ ND t X). cbn. f_equal. apply IH. intros y Y. apply S, elem_of_cons. by right.
  Qed.

  (** A block above its height is refused, and nothing asked ends the process. *)
  Theorem C76_unknown : forall C h c p m, serves C h c p -> c < m -> m < 2 ^ 64 -> serve_block P (srun (I P) h) m = Err.
  Proof using.
    intros C h c p m (HO & TX & PC & PN & PF) M L. unfold serve_block.
    rewrite (srun_get_block (I P) h m (ho_wf _ _ _ HO) (ho_stable _ _ _ HO)) by lia. by rewrite (ho_none _ _ _ HO) by lia.
  Qed.

  (** A proof above the newest one it has is refused. *)
  Theorem C76_refused : forall C h c p m mem chunk, serves C h c p -> p < m ->
    serve_proof P (srun (I P) h) m = Err /\ fetched P (srun (I P) h) m mem chunk = None.
  Proof using.
    intros C h c p m mem chunk (HO & TX & PC & PN & PF) M.
    assert (E : serve_proof P (srun (I P) h) m = Err).
    { unfold serve_proof. destruct (C32_latest (I P) h (ho_wf _ _ _ HO)) as (_ & _ & ->). rewrite PF. cbn iota beta. rewrite PN.
      destruct (N.ltb_spec m p); [lia|]. by destruct (N.eqb_spec m p); [lia|]. }
    split; [done|]. unfold fetched. rewrite E. by destruct (serve_block _ _ _).
  Qed.

  (** ** Verifying and executing an honest block *)
  Lemma verify_proven C s m r : 0 < m -> num (hb C m) = m -> block_by_number P s (m - 1) = Ok (hb C (m - 1)) ->
    (forall k, metadata_at P s k = metadata P r k) -> proven C m r -> verify_proof P s (hb C m) (hp C m) = Ok ().
  Proof using.
    intros M NB B MT (PN & PH & mt & ME & [R1 R2] & vs & X & ND & NV & IN & LT & Q & A). unfold verify_proof. cbn zeta. rewrite NB.
    destruct (N.eqb_spec m 0); [lia|]. rewrite PN, N.eqb_refl. cbn [negb]. rewrite B, PH. rewrite (proj2 (beqb_eq _ _) eq_refl). cbn [negb].
    rewrite MT, ME. apply N.leb_le in R1, R2. rewrite R1, R2. cbn [negb andb]. rewrite X.
    rewrite (verify_weight_accepts _ _ ND NV IN LT Q). rewrite <- PH. rewrite PN in A. unfold signer_keys. by rewrite A.
  Qed.

  (** Executing does not read the claimed previous state root. *)
  Definition exec_ignores_claimed_root : Prop :=
    forall s h r1 r2 hs l, exec P s (with_state_root h r1 hs) l = exec P s (with_state_root h r2 hs) l.

  (** One fetched block. [agent] is the status the synchronisation has reached. *)
  Theorem C76_step : forall C top n c agent i, exec_ignores_claimed_root -> honest C top -> holds C (nd_store P n) c -> c < top ->
    st_root agent = root C c -> fi_block P i = hb C (c + 1) -> fi_proof P i = hp C (c + 1) -> fi_chunk P i <> O ->
    (forall x u t, fi_mem P i x = Some u -> t ∈ ht C (c + 1) -> stx_hash P t = x -> u = t) ->
    (forall q, NoDup q -> (forall x, x ∈ q -> x ∈ b_tx_hashes (hb C (c + 1))) -> fi_remote P i q = Ok (txs_of (ht C (c + 1)) q)) ->
    sync_plan P n c agent i = Ok (hb C (c + 1), ht C (c + 1), hr C (c + 1)).
  Proof using.
    intros C top n c agent i EX (H0 & HT & HL) HO CT AR FB FP CK MEM RM. pose proof (HL (c + 1) ltac:(lia)) as LK.
    pose proof (lk_hashes _ _ LK) as HH. pose proof (lk_num _ _ LK) as NB.
    assert (BN : forall m, m <= c -> block_by_number P (store P n) m = Ok (hb C m)).
    { intros m M. unfold block_by_number, store. rewrite (srun_get_block (I P) (nd_store P n) m (ho_wf _ _ _ HO) (ho_stable _ _ _ HO)) by lia.
      by rewrite (ho_blocks _ _ _ HO m M). }
    assert (MT : forall k, metadata_at P (store P n) k = metadata P (root C c) k).
    { intros k. unfold metadata_at, store. destruct (C32_latest (I P) (nd_store P n) (ho_wf _ _ _ HO)) as (_ & -> & _). by rewrite (ho_latest _ _ _ HO). }
    unfold sync_plan.
    rewrite (rich_ok (ht C (c + 1)) (lk_nodup _ _ LK) (c + 1) i); [|by rewrite FB|by rewrite FB|done|done|by rewrite <- HH].
    rewrite FB, FP. unfold verify_block. cbn zeta.
    assert (CC : c + 1 - 1 = c) by lia.
    pose proof (lk_proof _ _ LK) as PR. rewrite CC in PR.
    rewrite (verify_proven C (store P n) (c + 1) (root C c)); [|lia|done|rewrite CC; apply BN; lia|exact MT|exact PR].
    unfold verify_block_header. cbn [p_number p_prev_hash with_state_root]. rewrite NB. destruct (N.eqb_spec (c + 1) 0); [lia|].
    rewrite CC, (BN c) by lia. pose proof (lk_prev _ _ LK) as PV. rewrite CC in PV. rewrite PV, (proj2 (beqb_eq _ _) eq_refl).
    assert (VP : verify_proof P (store P n) (hb C c) (h_proof (hdr C (c + 1))) = Ok ()).
    { destruct (decide (c = 0)) as [->|CZ].
      - unfold verify_proof. cbn zeta. rewrite H0. done.
      - destruct (lk_parent _ _ LK) as [E PP]; [lia|]. rewrite CC in E, PP. rewrite E.
        apply (verify_proven C (store P n) c (root C c)); [lia| |apply BN; lia|exact MT|exact PP]. apply (lk_num C c). apply HL. lia. }
    rewrite VP. rewrite (lk_digest _ _ LK), (proj2 (beqb_eq _ _) eq_refl). cbn [negb].
    unfold plan_sync. cbn zeta. rewrite AR. pose proof (lk_exec _ _ LK) as XE. rewrite CC in XE. rewrite (EX _ _ _ (root C c)), XE.
    rewrite (lk_root _ _ LK), (proj2 (beqb_eq _ _) eq_refl). cbn [negb]. rewrite (lk_rcpts _ _ LK), (proj2 (beqb_eq _ _) eq_refl). cbn [negb].
    rewrite NB, MT. destruct PR as (_ & _ & mt & -> & _). done.
  Qed.

  (* ---------------------------------------------------------------------- *)
  (** * What the store holds afterwards *)
  Lemma last_of_in (l : list (stx P)) t : NoDup (map (stx_hash P) l) -> t ∈ l -> last_of (stx_hash P) l (stx_hash P t) = Some t.
  Proof using.
    intros ND IN. destruct (last_of _ l _) as [u|] eqn:E.
    - apply last_of_elem in E as [E1 E2]. f_equal. by apply (T_inj l ND).
    - apply last_of_none in E. exfalso. apply E, elem_of_list_fmap. by exists t.
  Qed.
  Lemma holds_sync C top h c : typed P -> honest C top -> holds C h c -> c < top ->
    let h' := writes P h (sync_writes P (hb C (c + 1)) (ht C (c + 1)) (hr C (c + 1))) in
    holds C h' (c + 1) /\ (has_txs C h c -> has_txs C h' (c + 1)) /\ proof_at (I P) h' = Some (h_proof (hdr C (c + 1))).
  Proof using.
    intros TY (H0 & HT & HL) HO CT. pose proof (HL (c + 1) ltac:(lia)) as LK. pose proof (lk_num _ _ LK) as NB.
    destruct (good_sync P h (hb C (c + 1)) (ht C (c + 1)) (hr C (c + 1)) TY (ho_wf _ _ _ HO) (ho_stable _ _ _ HO)) as (W & S & A).
    { rewrite NB. lia. }
    { rewrite NB. apply (ho_none _ _ _ HO). lia. }
    cbn zeta. split; [|split].
    - split; [exact W|exact S| | |].
      + intros m M. rewrite A, NB. destruct (decide (c + 1 = m)) as [<-|NE]; [done|]. apply (ho_blocks _ _ _ HO). lia.
      + intros m M. rewrite A, NB. rewrite decide_False by lia. apply (ho_none _ _ _ HO). lia.
      + done.
    - intros TX m t M IN. unfold writes, sync_writes. cbn [fold_left tx_in]. rewrite NB. destruct (decide (c + 1 = m)) as [<-|NE].
      + change (t_hash (I P)) with (stx_hash P). change (tx (I P)) with (stx P). by rewrite (last_of_in (ht C (c + 1)) t (lk_nodup _ _ LK) IN).
      + apply TX; [lia|done].
    - done.
  Qed.
  (** A peer that commits the next block of the chain goes on serving it. *)
  Theorem C76_committed : forall C top h c p, typed P -> honest C top -> serves C h c p -> c < top ->
    serves C (writes P h (commit_writes P (hb C (c + 1)) (hp C (c + 1)) (ht C (c + 1)) (hr C (c + 1)))) (c + 1) (c + 1).
  Proof using.
    intros C top h c p TY (H0 & HT & HL) (HO & TX & _) CT. pose proof (HL (c + 1) ltac:(lia)) as LK. pose proof (lk_num _ _ LK) as NB.
    destruct (good_commit P h (hb C (c + 1)) (hp C (c + 1)) (ht C (c + 1)) (hr C (c + 1)) TY (ho_wf _ _ _ HO) (ho_stable _ _ _ HO)) as (W & S & A).
    { rewrite NB. lia. }
    { rewrite NB. apply (ho_none _ _ _ HO). lia. }
    split; [|split].
    - split; [exact W|exact S| | |].
      + intros m M. rewrite A, NB. destruct (decide (c + 1 = m)) as [<-|NE]; [done|]. apply (ho_blocks _ _ _ HO). lia.
      + intros m M. rewrite A, NB. rewrite decide_False by lia. apply (ho_none _ _ _ HO). lia.
      + done.
    - intros m t M IN. unfold writes, commit_writes. cbn [fold_left tx_in]. rewrite NB. destruct (decide (c + 1 = m)) as [<-|NE].
      + change (t_hash (I P)) with (stx_hash P). change (tx (I P)) with (stx P). by rewrite (last_of_in (ht C (c + 1)) t (lk_nodup _ _ LK) IN).
      + apply TX; [lia|done].
    - split; [lia|]. split; [|done]. apply (lk_proof _ _ LK).
  Qed.
  (** Reading from the store changes none of this. *)
  Theorem C76_reading : forall C h c p e, cache_event P e = true -> wf_event (I P) e -> serves C h c p -> serves C (e :: h) c p.
  Proof using.
    intros C h c p e CE WE ([W S B N L] & TX & PC & PN & PF). split; [|split; [|split; [done|split; [done|]]]].
    - split; [by apply Forall_cons|split; [|done]; intros m b; by destruct e|intros m M|intros m M|]; destruct e; try discriminate CE; try (by apply B); try (by apply N); exact L.
    - intros m t M T. destruct e; try discriminate CE; by apply TX.
    - destruct e; try discriminate CE; exact PF.
  Qed.

  (* ---------------------------------------------------------------------- *)
  (** * Catching up *)
  Definition synced (C : hchain) (n : node P) (c : N) : Prop :=
    idle P n /\ holds C (nd_store P n) c /\ st_last (nd_status P n) = c /\ st_root (nd_status P n) = root C c /\
    st_prev_hash (nd_status P n) = block_hash P (hb C c).
  (** events in the order they happen *)
  Definition forward (n : node P) (l : list (event P)) : node P := run P n (rev l).
  Lemma forward_cons n e l : forward n (e :: l) = forward (step P n e) l.
  Proof using.
    unfold forward. cbn [rev]. generalize (rev l). induction l0 as [|x l0 IH]; [done|]. cbn [run app]. by rewrite IH.
  Qed.
  Lemma forward_app n k l : forward n (k ++ l) = forward (forward n k) l.
  Proof using.
    revert n. induction k as [|e k IH]; intros n; [done|]. cbn [app]. rewrite !forward_cons. apply IH.
  Qed.

  Section CatchUp.
    (** the peer asked for each height (its store at that moment), what the own mempool has, and the chunk size of the requests *)
    Variable peer : N -> list (sevent (I P)).
    Variable mem : N -> bytes -> option (stx P).
    Variable chunk : nat.
    Fixpoint pulls (c : N) (k : nat) : list (event P) :=
      match k with
      | O => []
      | S k => VTask P 0 (fetched P (srun (I P) (peer (c + 1))) (c + 1) (mem (c + 1)) chunk) :: pulls (c + 1) k
      end.
    (** a peer's announcement of [top], and the fetching it causes: at most 50 blocks *)
    Definition round (n : node P) (top : N) : list (event P) :=
      let c := st_last (nd_status P n) in
      VAnnounce P top :: (if top =? c + 1 then [VTask P 0 None] else []) ++ [VTask P 0 None] ++
        pulls c (N.to_nat (N.min top (c + 50) - c)) ++ [VTask P 0 None].
    Fixpoint rounds (k : nat) (n : node P) (top : N) : node P :=
      match k with O => n | S k => rounds k (forward n (round n top)) top end.

    Variables (C : hchain) (top all : N).
    Hypothesis TY : typed P.
    Hypothesis EX : exec_ignores_claimed_root.
    Hypothesis HC : honest C all.
    Hypothesis SV : forall m, 0 < m <= top -> exists c p, top <= p /\ c <= all /\ serves C (peer m) c p.
    Hypothesis MEM : forall m x u t, 0 < m <= top -> mem m x = Some u -> t ∈ ht C m -> stx_hash P t = x -> u = t.
    Hypothesis CK : chunk <> O.

    Definition running (n : node P) (r c target : N) (agent : status) : Prop :=
      nd_syncing P n = true /\ nd_commit_lock P n = true /\ holds C (nd_store P n) c /\
      nd_tasks P n = [TRun r c target agent] /\ st_last agent = c /\ st_root agent = root C c /\ st_prev_hash agent = block_hash P (hb C c).
    Definition tip_status (c : N) : status := Status_ (block_hash P (hb C c)) c (root C c) (hp C c).
    Lemma pull_step n r c target agent : running n r c target agent -> c < target -> target <= top ->
      let n' := step P n (VTask P 0 (fetched P (srun (I P) (peer (c + 1))) (c + 1) (mem (c + 1)) chunk)) in
      running n' r (c + 1) target (tip_status (c + 1)) /\
      (has_txs C (nd_store P n) c -> has_txs C (nd_store P n') (c + 1)) /\
      proof_at (I P) (nd_store P n') = Some (h_proof (hdr C (c + 1))).
    Proof using TY EX HC SV MEM CK.
      intros (SY & LK & HO & TK & AL & AR & AH) CT TT. destruct (SV (c + 1) ltac:(lia)) as (c' & p' & PP & CC & SE). pose proof (proj1 (proj2 (proj2 SE))) as PC.
      destruct (C76_served C (peer (c + 1)) c' p' all (c + 1) TY HC SE) as (SB & SP & ST); [lia|lia|].
      cbn zeta. cbn [step]. unfold task_step. rewrite TK. cbn [lookup list_lookup]. apply N.ltb_lt in CT as CT'. rewrite CT'.
      unfold fetched. rewrite SB, SP.
      rewrite (C76_step C all n c agent _ EX HC HO); [|lia|exact AR|reflexivity|reflexivity|exact CK| |exact ST].
      2:{ intros x u t. cbn [fi_mem]. apply MEM. lia. }
      destruct HC as (H0 & HT & HL). pose proof (HL (c + 1) ltac:(lia)) as LN.
      destruct (holds_sync C all (nd_store P n) c TY HC HO ltac:(lia)) as (HO' & HX & HP).
      cbn [nd_syncing nd_commit_lock nd_store nd_tasks set_sync set_store fi_proof]. rewrite (lk_num _ _ LN), (lk_root _ _ LN).
      split; [|split; [exact HX|exact HP]]. split; [done|]. split; [done|]. split; [exact HO'|]. done.
    Qed.
    Lemma pulls_run k : forall n r c target agent, running n r c target agent -> c + N.of_nat k = target -> target <= top ->
      let n' := forward n (pulls c k) in
      exists agent', running n' r target target agent' /\ (agent' = tip_status target \/ k = O) /\
      (has_txs C (nd_store P n) c -> has_txs C (nd_store P n') target) /\
      (k <> O -> proof_at (I P) (nd_store P n') = Some (h_proof (hdr C target))).
    Proof using TY EX HC SV MEM CK.
      induction k as [|k IH]; intros n r c target agent R E TT; cbn zeta.
      - assert (c = target) as -> by lia. exists agent. split; [exact R|]. split; [by right|]. split; done.
      - cbn [pulls]. rewrite forward_cons.
        destruct (pull_step n r c target agent R) as (R' & TX & PF); [lia|exact TT|].
        destruct (IH _ r (c + 1) target _ R') as (ag & R2 & A & T2 & P2); [lia|exact TT|].
        exists ag. split; [exact R2|]. split; [|split; [intros X; apply T2, TX, X|]].
        + left. destruct A as [A|A]; [exact A|]. subst k. cbn [pulls] in R2. destruct R2 as (_ & _ & _ & R2 & _). destruct R' as (_ & _ & _ & R' & _).
          unfold forward in R2. cbn [rev run] in R2. rewrite R' in R2. injection R2 as E1 E2. rewrite <- E2. by rewrite E1.
        + intros _. destruct k as [|k]; [|by apply P2]. assert (target = c + 1) as -> by lia. exact PF.
    Qed.

    Lemma finish_running n r target agent : running n r target target agent ->
      synced C (step P n (VTask P 0 None)) target /\ nd_status P (step P n (VTask P 0 None)) = agent /\ nd_store P (step P n (VTask P 0 None)) = nd_store P n.
    Proof using.
      intros (SY & LK & HO & TK & AL & AR & AH). cbn [step]. unfold task_step. rewrite TK. cbn [lookup list_lookup]. rewrite N.ltb_irrefl.
      unfold finish, synced, idle. cbn. rewrite TK. done.
    Qed.

    (** One announcement takes the node 50 blocks further, or to the announced height if that is nearer. *)
    Theorem C76_catch_up : forall n c, synced C n c -> c < top ->
      let target := N.min top (c + 50) in
      let n' := forward n (round n top) in
      synced C n' target /\ nd_status P n' = tip_status target /\ (has_txs C (nd_store P n) c -> has_txs C (nd_store P n') target) /\
      proof_at (I P) (nd_store P n') = Some (h_proof (hdr C target)).
    Proof using TY EX HC SV MEM CK.
      intros n c ((SY & LK & TK) & HO & SL & SR & SH) CT. cbn zeta. pose proof (proj1 (proj2 HC)) as HT.
      destruct (SV top ltac:(lia)) as (c' & p' & PP & CC & SE). pose proof (proj1 (proj2 (proj2 SE))) as PC. clear SE.
      unfold round. cbn zeta. rewrite forward_cons. cbn [step]. unfold announce. rewrite SY.
      destruct (N.eqb_spec top 0); [lia|]. rewrite SL. destruct (N.leb_spec top c); [lia|]. rewrite TK. cbn [app].
      set (lock := Node P (nd_status P n) (nd_store P n) (nd_wal P n) (nd_exempt P n) true (nd_commit_lock P n) [TLock top]).
      assert (E : forall l, forward (set_sync P n true (nd_commit_lock P n) [if c =? top - 1 then TSleep top else TLock top])
         ((if top =? c + 1 then [VTask P 0 None] else []) ++ l) = forward lock l).
      { intros l. destruct (N.eqb_spec c (top - 1)) as [Q|Q], (N.eqb_spec top (c + 1)) as [Q2|Q2]; try lia; [|done].
        cbn [app]. rewrite forward_cons. f_equal. cbn [step]. unfold task_step. cbn [nd_tasks set_sync lookup list_lookup nd_status]. rewrite SL.
        destruct (N.eqb_spec c top); [lia|]. done. }
      rewrite E. clear E. rewrite forward_cons, forward_app.
      set (target := N.min top (c + 50)).
      assert (R : running (step P lock (VTask P 0 None)) top c target (nd_status P n) /\ nd_store P (step P lock (VTask P 0 None)) = nd_store P n).
      { cbn [step]. unfold task_step, lock. cbn [nd_tasks lookup list_lookup nd_commit_lock nd_status]. rewrite LK, SL.
        destruct (N.leb_spec top c); [lia|]. unfold U64, ONCE_SYNC_BLOCK_LIMIT. destruct (N.leb_spec (2 ^ 64) (c + 50)); [lia|].
        assert (TE : (if top <? c + 50 then top else c + 50) = target) by (unfold target; destruct (N.ltb_spec top (c + 50)); lia).
        rewrite TE. done. }
      destruct R as [R RS]. destruct (pulls_run (N.to_nat (target - c)) _ _ _ target _ R) as (ag & R2 & A & TX & PF); [lia|lia|].
      destruct (finish_running _ _ _ _ R2) as (Z1 & Z2 & Z3).
      assert (FE : forall m, forward m [VTask P 0 None] = step P m (VTask P 0 None)) by done. rewrite FE.
      split; [exact Z1|]. rewrite Z2, Z3. split; [|split].
      - destruct A as [A|A]; [exact A|lia].
      - rewrite RS in TX. exact TX.
      - apply PF. lia.
    Qed.

    (** Afterwards it tells others its new height, can serve everything below, but not the block it is at. *)
    Theorem C76_synced : forall n c, synced C n c -> has_txs C (nd_store P n) c -> c < top -> 1 < top ->
      let target := N.min top (c + 50) in
      let n' := forward n (round n top) in
      advertised P n' = Some target /\ serves C (nd_store P n') target (target - 1) /\
      forall mem chunk, fetched P (store P n') target mem chunk = None.
    Proof using TY EX HC SV MEM CK.
      intros n c S X CT T1. cbn zeta. destruct (C76_catch_up n c S CT) as ((_ & HO & _) & ST & TX & PF). cbn zeta in *.
      destruct (SV top ltac:(lia)) as (c' & p' & PP & CC & SE). pose proof (proj1 (proj2 (proj2 SE))) as PC. clear SE.
      set (target := N.min top (c + 50)) in *. destruct HC as (H0 & HT & HL).
      assert (TG : 1 < target <= all) by lia.
      destruct (lk_proof _ _ (HL target ltac:(lia))) as (PN & _). destruct (lk_parent _ _ (HL target ltac:(lia)) ltac:(lia)) as [HP (PN1 & _)].
      assert (SS : serves C (nd_store P (forward n (round n top))) target (target - 1)).
      { split; [exact HO|]. split; [by apply TX|]. split; [lia|]. split; [exact PN1|]. rewrite PF. by rewrite HP. }
      split; [|split; [exact SS|]].
      - unfold advertised. rewrite ST. cbn [st_proof tip_status]. rewrite PN. destruct (N.eqb_spec target 0); [lia|done].
      - intros m k. apply (C76_refused C _ target (target - 1) target m k SS). lia.
    Qed.

    (** Enough announcements take it all the way. *)
    Theorem C76_all : forall k n c, synced C n c -> c <= top <= c + 50 * N.of_nat k -> synced C (rounds k n top) top /\
      (has_txs C (nd_store P n) c -> has_txs C (nd_store P (rounds k n top)) top).
    Proof using TY EX HC SV MEM CK.
      induction k as [|k IH]; intros n c S [L1 L2]; cbn [rounds].
      - assert (c = top) as -> by lia. done.
      - destruct (decide (c = top)) as [->|NE].
        + assert (E : forward n (round n top) = n).
          { destruct S as ((SY & LK & TK) & HO & SL & SR & SH).
            assert (NT : forall i, step P n (VTask P 0 i) = n) by (intros i; cbn [step]; unfold task_step; by rewrite TK).
            unfold round. cbn zeta. rewrite forward_cons. rewrite SL.
            assert (AN : step P n (VAnnounce P top) = n).
            { cbn [step]. unfold announce. rewrite SY. destruct (_ =? 0); [done|]. rewrite SL. by rewrite N.leb_refl. }
            rewrite AN. destruct (N.eqb_spec top (top + 1)); [lia|]. cbn [app]. rewrite forward_cons, NT.
            replace (N.to_nat (N.min top (top + 50) - top)) with O by lia. cbn [pulls app]. rewrite forward_cons, NT. done. }
          rewrite E. apply IH; [done|lia].
        + destruct (C76_catch_up n c S ltac:(lia)) as (S' & _ & TX & _).
          destruct (IH _ _ S') as [A B]; [lia|]. split; [exact A|]. intros X. apply B, TX, X.
    Qed.
  End CatchUp.
End Props.

(* ------------------------------------------------------------------------ *)
(** * The small network of ConsensusProps2: a peer that committed two blocks, a fresh node, and a third one *)
Definition y_block (m : N) : BlockModel.block := match m with 0 => x_genesis | 1 => b1 | _ => b2 end.
Definition y_txs (m : N) : list N := match m with 0 => [] | 1 => [41; 42] | _ => [43] end.
Definition y_proof (m : N) : BlockModel.proof := match m with 0 => no_proof | 1 => pf1 | _ => pf2 end.
Definition y_res (m : N) : exec_resp :=
  match x_exec (h_state_root (BlockModel.b_header (y_block (m - 1)))) dummy (y_txs m) with Ok r => r | _ => ExecResp_ [] [] 0 [] end.
Definition Y : hchain X := HChain X y_block y_txs y_proof y_res.

Lemma Y_quorum pf : x_extract (map v_pub x_validators) (pf_bitmap pf) = Some [[1]; [2]] ->
  beqb (pf_signature pf) (x_sign (x_digest (x_vote (pf_number pf) (pf_round pf) (pf_block_hash pf))) [[11]; [12]]) = true ->
  quorum X (Meta_ 0 100 x_validators) pf.
Proof.
  intros E S. exists [[1]; [2]]. split; [exact E|]. split; [refine (bool_decide_unpack _ _); vm_compute; exact Logic.I|]. split; [refine (bool_decide_unpack _ _); vm_compute; exact Logic.I|]. split.
  { intros x X0. apply elem_of_cons in X0 as [->|X0]; [refine (bool_decide_unpack _ _); vm_compute; exact Logic.I|]. apply elem_of_list_singleton in X0 as ->. refine (bool_decide_unpack _ _); vm_compute; exact Logic.I. }
  split; [vm_compute; reflexivity|]. split; [vm_compute; reflexivity|]. exact S.
Qed.
Lemma Y_honest : honest X Y 2.
Proof.
  split; [reflexivity|]. split; [reflexivity|]. intros m M.
  assert (m = 1 \/ m = 2) as [->| ->] by lia.
  - split; try vmr.
    + refine (bool_decide_unpack _ _); vm_compute; exact Logic.I.
    + split; [vmr|]. split; [vmr|]. exists (Meta_ 0 100 x_validators). split; [vmr|]. split; [cbn; lia|]. apply Y_quorum; vmr.
    + intros L. lia.
  - split; try vmr.
    + refine (bool_decide_unpack _ _); vm_compute; exact Logic.I.
    + split; [vmr|]. split; [vmr|]. exists (Meta_ 0 100 x_validators). split; [vmr|]. split; [cbn; lia|]. apply Y_quorum; vmr.
    + intros _. split; [vmr|]. split; [vmr|]. split; [vmr|]. exists (Meta_ 0 100 x_validators). split; [vmr|]. split; [cbn; lia|]. apply Y_quorum; vmr.
Qed.
Lemma Y_start : synced X Y x_start 0 /\ serves X Y (nd_store X x_start) 0 0.
Proof.
  destruct X_start as [ID [W S _]].
  assert (HO : holds X Y (nd_store X x_start) 0).
  { split; [exact W|exact S| | |].
    - intros m M. assert (m = 0) as -> by lia. vmr.
    - intros m M. change (nd_store X x_start) with (ERestart (I X) :: genesis_store X x_genesis [] []). unfold genesis_store. cbn. by destruct m.
    - vmr. }
  split.
  - split; [exact ID|]. split; [exact HO|]. split; [vmr|]. split; vmr.
  - split; [exact HO|]. split; [intros m t M; lia|]. split; [lia|]. split; vmr.
Qed.
Lemma Y_peer : serves X Y (nd_store X n2) 2 2.
Proof.
  assert (S1 : serves X Y (nd_store X n1) 1 1).
  { assert (E : nd_store X n1 = writes X (nd_store X x_start) (commit_writes X (hb X Y (0 + 1)) (hp X Y (0 + 1)) (ht X Y (0 + 1)) (hr X Y (0 + 1)))) by vmr.
    rewrite E. exact (C76_committed X Y 2 _ 0 0 X_typed Y_honest (proj2 Y_start) ltac:(lia)). }
  assert (E : nd_store X n2 = writes X (nd_store X n1) (commit_writes X (hb X Y (1 + 1)) (hp X Y (1 + 1)) (ht X Y (1 + 1)) (hr X Y (1 + 1)))) by vmr.
  rewrite E. exact (C76_committed X Y 2 _ 1 1 X_typed Y_honest S1 ltac:(lia)).
Qed.
Definition y_mem (m : N) (x : bytes) : option N := if bool_decide (x = be_fixed 32 43) then Some 43 else None.
(** the fresh node after fetching both blocks, one transaction per request, one of them from its own pool *)
Definition y_fetch : list (event X) := round X (fun _ => nd_store X n2) y_mem 1 x_start 2.
Definition y_synced : node X := forward X x_start y_fetch.
Lemma Y_mem : forall m x u t, 0 < m <= 2 -> y_mem m x = Some u -> t ∈ y_txs m -> be_fixed 32 t = x -> u = t.
Proof.
  intros m x u t M. unfold y_mem. case_bool_decide as E; [|done]. intros [= <-] T H. subst x.
  assert (m = 1 \/ m = 2) as [->| ->] by lia; cbn in T.
  - apply elem_of_cons in T as [->|T]; [by vm_compute in H|]. apply elem_of_list_singleton in T as ->. by vm_compute in H.
  - by apply elem_of_list_singleton in T as ->.
Qed.
Example C76_example : synced X Y y_synced 2 /\ nd_status X y_synced = Status_ (block_hash X b2) 2 (h_state_root (BlockModel.b_header b2)) pf2 /\
  has_txs X Y (nd_store X y_synced) 2 /\ length y_fetch = 5%nat.
Proof.
  destruct Y_start as [S _].
  destruct (C76_catch_up X (fun _ => nd_store X n2) y_mem 1 Y 2 2 X_typed (fun _ _ _ _ _ _ => eq_refl) Y_honest) with (n := x_start) (c := 0) as (A & B & C & _).
  - intros m M. exists 2, 2. split; [lia|]. split; [lia|exact Y_peer].
  - exact Y_mem.
  - done.
  - exact S.
  - lia.
  - cbn zeta in A, B, C. split; [exact A|]. split; [exact B|]. split; [|reflexivity]. apply C. intros m t M. lia.
Qed.

(** A height a node broadcasts is not always one it can prove: the node that has just caught up announces 2, and another node at height 1
    that asks it for block 2 stays where it is. *)
Theorem C76_announced_refuted : exists h n, n = run X x_start h /\ idle X n /\ advertised X n = Some 2 /\
  serve_block X (store X n) 2 = Ok b2 /\ serve_proof X (store X n) 2 = Err /\
  let asker := forward X n1 (round X (fun _ => nd_store X n) (fun _ _ => None) 50 n1 2) in
  idle X asker /\ st_last (nd_status X asker) = 1.
Proof.
  exists (rev y_fetch), y_synced. split; [reflexivity|]. split; [exact (proj1 (proj1 C76_example))|]. split; [vmr|]. split; [vmr|]. split; [vmr|].
  cbn zeta. split; [split; [vmr|split; vmr]|vmr].
Qed.

Print Assumptions C76_served.
Print Assumptions C76_unknown.
Print Assumptions C76_refused.
Print Assumptions C76_step.
Print Assumptions C76_committed.
Print Assumptions C76_reading.
Print Assumptions C76_catch_up.
Print Assumptions C76_synced.
Print Assumptions C76_all.
Print Assumptions C76_example.
Print Assumptions C76_announced_refuted.
