(** C32, C33, C34: the chain storage returns what was saved. *)
From Verif Require Import Bytes BytesProofs TxModel MetaModel StorageModel StorageProofs.
From stdpp Require Import base gmap list sorting.
From Coq Require Import Lia.

Section Props.
  Variable I : iface.
  Notation num b := (h_number I (b_header I b)).
  Notation event := (sevent I).

  (* ---------------------------------------------------------------------- *)
  (** * Specification: answers read off the history of writes, newest first *)

  Fixpoint block_at (h : list event) (n : N) : option (blk I) :=
    match h with
    | [] => None
    | ESave _ b :: r | ESet _ b :: r => if decide (num b = n) then Some b else block_at r n
    | ERemove _ m :: r => if decide (m = n) then None else block_at r n
    | _ :: r => block_at r n
    end.
  Fixpoint header_at (h : list event) (n : N) : option (hdr I) :=
    match h with
    | [] => None
    | ESave _ b :: r | ESet _ b :: r => if decide (num b = n) then Some (b_header I b) else header_at r n
    | _ :: r => header_at r n
    end.
  Fixpoint latest_at (h : list event) : option (blk I) :=
    match h with [] => None | ESave _ b :: _ | ELatest _ b :: _ => Some b | _ :: r => latest_at r end.
  Fixpoint proof_at (h : list event) : option (proof I) :=
    match h with [] => None | EProof _ p :: _ => Some p | _ :: r => proof_at r end.
  (** the height recorded for a hash, be it of a block, a transaction or a receipt *)
  Fixpoint number_at (h : list event) (x : bytes) : option N :=
    match h with
    | [] => None
    | ESave _ b :: r | ESet _ b :: r => if decide (b_hash I b = x) then Some (num b) else number_at r x
    | ETxs _ n l :: r => if decide (x ∈ map (t_hash I) l) then Some n else number_at r x
    | ERcpts _ n l :: r => if decide (x ∈ map (r_hash I) l) then Some n else number_at r x
    | _ :: r => number_at r x
    end.
  Fixpoint tx_in (h : list event) (n : N) (x : bytes) : option (tx I) :=
    match h with
    | [] => None
    | ETxs _ m l :: r => if decide (m = n) then match last_of (t_hash I) l x with Some t => Some t | None => tx_in r n x end else tx_in r n x
    | _ :: r => tx_in r n x
    end.
  Fixpoint rcpt_in (h : list event) (n : N) (x : bytes) : option (receipt I) :=
    match h with
    | [] => None
    | ERcpts _ m l :: r => if decide (m = n) then match last_of (r_hash I) l x with Some t => Some t | None => rcpt_in r n x end else rcpt_in r n x
    | _ :: r => rcpt_in r n x
    end.
  (** what is recorded under a code hash or a code address *)
  Fixpoint code_at (h : list event) (x : bytes) : option bytes :=
    match h with
    | [] => None
    | ECode _ a y c :: r => if decide (a = x) then Some y else if decide (y = x) then Some c else code_at r x
    | _ :: r => code_at r x
    end.
  Definition tx_at h x := match number_at h x with Some n => tx_in h n x | None => None end.
  Definition rcpt_at h x := match number_at h x with Some n => rcpt_in h n x | None => None end.
  Definition by_hash_at h x := match number_at h x with Some n => block_at h n | None => None end.
  Definition code_by_address_at h a : outcome (option bytes) :=
    match code_at h a with None => Ok None | Some x => if (length x =? 32)%nat then Ok (code_at h x) else Err end.

  (** heights are 64-bit, hashes have 32 bytes (the types u64 and H256) *)
  Definition wf_event (e : event) : Prop :=
    match e with
    | ESave _ b | ESet _ b | ELatest _ b => (num b < 2 ^ 64)%N
    | ERemove _ n | EGetBlock _ n | EGetHeader _ n => (n < 2 ^ 64)%N
    | ETxs _ n l => (n < 2 ^ 64)%N /\ Forall (fun t => length (t_hash I t) = 32) l
    | ERcpts _ n l => (n < 2 ^ 64)%N /\ Forall (fun t => length (r_hash I t) = 32) l
    | _ => True
    end.
  Notation wf_hist := (Forall wf_event).

  (* ---------------------------------------------------------------------- *)
  (** * The columns hold exactly what the specification says *)

  Record refines (h : list event) (d : sdb I) : Prop := {
    rf_block : forall n, (n < 2 ^ 64)%N -> d_block I d !! height_key n = option_map (VBlock I) (block_at h n);
    rf_latest : d_block I d !! rlp_key LATEST_BLOCK_KEY = option_map (VBlock I) (latest_at h);
    rf_proof : d_block I d !! rlp_key LATEST_PROOF_KEY = option_map (VProof I) (proof_at h);
    rf_header : forall n, (n < 2 ^ 64)%N -> d_header I d !! height_key n = header_at h n;
    rf_num : forall x, d_num I d !! rlp_key x = number_at h x;
    rf_tx : forall n x, (n < 2 ^ 64)%N -> d_tx I d !! hash_key n x = tx_in h n x;
    rf_rcpt : forall n x, (n < 2 ^ 64)%N -> d_rcpt I d !! hash_key n x = rcpt_in h n x;
    rf_code : forall x, d_code I d !! rlp_key x = code_at h x;
    rf_tx_keys : forall k v, d_tx I d !! k = Some v -> good_key k;
    rf_rcpt_keys : forall k v, d_rcpt I d !! k = Some v -> good_key k;
    rf_nums : forall x n, number_at h x = Some n -> (n < 2 ^ 64)%N;
    rf_heads : forall n b, block_at h n = Some b -> header_at h n <> None }.

  (** reads leave the database alone *)
  Lemma get_block_db s n : s_db I (get_block I s n).1 = s_db I s.
  Proof using. unfold get_block. destruct (c_blocks _ _ !! n); [done|]. by destruct (read_block _ _ _) as [[b|]| |]. Qed.
  Lemma get_number_db s x : s_db I (get_number I s x).1 = s_db I s.
  Proof using. unfold get_number. destruct (c_nums _ _ !! x); [done|]. by destruct (d_num _ _ !! _). Qed.
  Lemma get_header_db s n : s_db I (get_block_header I s n).1 = s_db I s.
  Proof using.
    unfold get_block_header. destruct (c_headers _ _ !! n); [done|]. destruct (d_header _ _ !! _); [done|].
    pose proof (get_block_db s n) as E. by destruct (get_block I s n) as [s' [o| |]].
  Qed.
  Lemma get_by_hash_db s x : s_db I (get_block_by_hash I s x).1 = s_db I s.
  Proof using.
    unfold get_block_by_hash. pose proof (get_number_db s x) as E. destruct (get_number I s x) as [s' [n|]]; [|done].
    by rewrite get_block_db.
  Qed.
  Lemma get_code_db s x : s_db I (get_code_by_hash I s x).1 = s_db I s.
  Proof using. unfold get_code_by_hash. destruct (c_codes _ _ !! x); [done|]. by destruct (d_code _ _ !! _). Qed.
  Lemma get_code_addr_db s x : s_db I (get_code_by_address I s x).1 = s_db I s.
  Proof using.
    unfold get_code_by_address. destruct (d_code _ _ !! _) as [y|]; [|done]. destruct (_ =? _)%nat; [|done].
    pose proof (get_code_db s y) as E. by destruct (get_code_by_hash I s y).
  Qed.
  Lemma get_tx_db s x : s_db I (get_tx I s x).1 = s_db I s.
  Proof using. unfold get_tx. destruct (c_txs _ _ !! x); [done|]. destruct (d_num _ _ !! _); [|done]. by destruct (d_tx _ _ !! _). Qed.
  Lemma get_rcpt_db s x : s_db I (get_receipt I s x).1 = s_db I s.
  Proof using. unfold get_receipt. destruct (c_rcpts _ _ !! x); [done|]. destruct (d_num _ _ !! _); [|done]. by destruct (d_rcpt _ _ !! _). Qed.

  Lemma latest_keys : rlp_key LATEST_BLOCK_KEY <> rlp_key LATEST_PROOF_KEY.
  Proof using. vm_compute. done. Qed.
  Lemma height_latest n : height_key n <> rlp_key LATEST_BLOCK_KEY.
  Proof using. by apply height_rlp. Qed.
  Lemma height_proof n : height_key n <> rlp_key LATEST_PROOF_KEY.
  Proof using. by apply height_rlp. Qed.

  Lemma lastk_nums {V} (f : V -> bytes) (n : N) l x :
    lastk (map (fun t => (rlp_key (f t), n)) l) (rlp_key x) = if decide (x ∈ map f l) then Some n else None.
  Proof using.
    rewrite lastk_map. rewrite (last_of_ext _ f l (rlp_key x) x).
    - destruct (last_of f l x) as [v|] eqn:E; cbn.
      + apply last_of_elem in E as [E1 E2]. rewrite decide_True; [done|]. apply elem_of_list_fmap. by exists v.
      + apply last_of_none in E. by rewrite decide_False.
    - intros v _. unfold rlp_key. split; [by intros [=]|by intros ->].
  Qed.
  Lemma lastk_vals {V} (f : V -> bytes) (n m : N) l x : (n < 2 ^ 64)%N -> (m < 2 ^ 64)%N ->
    lastk (map (fun t => (hash_key m (f t), t)) l) (hash_key n x) = if decide (m = n) then last_of f l x else None.
  Proof using.
    intros Hn Hm. rewrite (lastk_map (fun t => hash_key m (f t)) (fun t => t)).
    destruct (decide (m = n)) as [->|N].
    - rewrite (last_of_ext _ f l (hash_key n x) x); [by destruct (last_of f l x)|].
      intros v _. split; [intros E; by apply hash_key_inj in E as [_ E]|by intros ->].
    - destruct (last_of _ l _) as [v|] eqn:E; [|done]. apply last_of_elem in E as [_ E]. by apply hash_key_inj in E as [E _].
  Qed.

  Lemma refines_set_block h d b : (num b < 2 ^ 64)%N -> refines h d ->
    refines (ESet I b :: h) (SDb I (<[height_key (num b) := VBlock I b]> (d_block I d)) (<[height_key (num b) := b_header I b]> (d_header I d))
                  (d_tx I d) (d_rcpt I d) (<[rlp_key (b_hash I b) := num b]> (d_num I d)) (d_code I d)).
  Proof using.
    intros B R. destruct R. split; cbn [block_at header_at latest_at proof_at number_at tx_in rcpt_in code_at d_block d_header d_tx d_rcpt d_num d_code]; try done.
    - intros n Hn. destruct (decide (num b = n)) as [<-|N]; [by rewrite lookup_insert|].
      rewrite lookup_insert_ne; [auto|]. intros E. by apply height_key_inj in E.
    - rewrite lookup_insert_ne; [done|]. apply height_latest.
    - rewrite lookup_insert_ne; [done|]. apply height_proof.
    - intros n Hn. destruct (decide (num b = n)) as [<-|N]; [by rewrite lookup_insert|].
      rewrite lookup_insert_ne; [auto|]. intros E. by apply height_key_inj in E.
    - intros x. destruct (decide (b_hash I b = x)) as [<-|N]; [by rewrite lookup_insert|].
      rewrite lookup_insert_ne; [auto|]. unfold rlp_key. by intros [=].
    - intros x n. destruct (decide _); [by intros [= <-]|apply rf_nums0].
    - intros n c. destruct (decide _); [done|apply rf_heads0].
  Qed.
  Lemma refines_latest h d b : refines h d ->
    refines (ELatest I b :: h) (SDb I (<[rlp_key LATEST_BLOCK_KEY := VBlock I b]> (d_block I d)) (d_header I d) (d_tx I d) (d_rcpt I d) (d_num I d) (d_code I d)).
  Proof using.
    intros R. destruct R. split; cbn [block_at header_at latest_at proof_at number_at tx_in rcpt_in code_at d_block d_header d_tx d_rcpt d_num d_code]; try done.
    - intros n Hn. rewrite lookup_insert_ne; [auto|]. intros E. symmetry in E. by apply height_latest in E.
    - by rewrite lookup_insert.
    - rewrite lookup_insert_ne; [done|]. apply latest_keys.
  Qed.

  Lemma srun_refines h : wf_hist h -> refines h (s_db I (srun I h)).
  Proof using.
    induction h as [|e h IH]; intros W.
    { split; cbn; intros; try (by rewrite lookup_empty); try (by rewrite lookup_empty in *); done. }
    apply Forall_cons in W as [We W]. specialize (IH W). cbn [srun].
    generalize dependent (srun I h). intros s R.
    destruct e as [b|b|b|n|n l|n l|a x c|p|n|n|x|x|x|x|x|x|k|]; cbn [sstep].
    9: rewrite get_block_db.
    10: rewrite get_header_db.
    11: rewrite get_number_db.
    12: rewrite get_by_hash_db.
    13: rewrite get_tx_db.
    14: rewrite get_rcpt_db.
    15: rewrite get_code_db.
    16: rewrite get_code_addr_db.
    9-18: (destruct R; split; assumption).
    - cbn in We. pose proof (refines_latest _ _ b (refines_set_block _ _ b We R)) as R2.
      destruct R2. split; cbn [block_at header_at latest_at proof_at number_at tx_in rcpt_in code_at] in *; assumption.
    - by apply refines_set_block.
    - by apply refines_latest.
    - cbn in We. destruct R. split; cbn [block_at header_at latest_at proof_at number_at tx_in rcpt_in code_at remove_block set_db s_db d_block d_header d_tx d_rcpt d_num d_code]; try done.
      + intros m Hm. destruct (decide (n = m)) as [<-|N]; [by rewrite lookup_delete|].
        rewrite lookup_delete_ne; [auto|]. intros E. by apply height_key_inj in E.
      + rewrite lookup_delete_ne; [done|]. apply height_latest.
      + rewrite lookup_delete_ne; [done|]. apply height_proof.
      + intros m b. destruct (decide _); [done|apply rf_heads0].
    - cbn in We. destruct We as [Hn WL]. destruct R. split; cbn [block_at header_at latest_at proof_at number_at tx_in rcpt_in code_at insert_txs set_db s_db d_block d_header d_tx d_rcpt d_num d_code]; try done.
      + intros x. rewrite put_many_lookup, lastk_nums. destruct (decide _); auto.
      + intros m x Hm. rewrite put_many_lookup, lastk_vals by done. destruct (decide (n = m)) as [<-|]; [|auto].
        destruct (last_of _ l x); auto.
      + intros k v. rewrite put_many_lookup. destruct (lastk _ k) as [w|] eqn:E; [|apply rf_tx_keys0]. intros _.
        apply lastk_elem in E. apply elem_of_list_fmap in E as (t & E & T). injection E as -> ->.
        rewrite Forall_forall in WL. exists n, (t_hash I t). split; [done|]. split; [by apply WL|done].
      + intros x m. destruct (decide _); [by intros [= <-]|apply rf_nums0].
    - cbn in We. destruct We as [Hn WL]. destruct R. split; cbn [block_at header_at latest_at proof_at number_at tx_in rcpt_in code_at insert_receipts set_db s_db d_block d_header d_tx d_rcpt d_num d_code]; try done.
      + intros x. rewrite put_many_lookup, lastk_nums. destruct (decide _); auto.
      + intros m x Hm. rewrite put_many_lookup, lastk_vals by done. destruct (decide (n = m)) as [<-|]; [|auto].
        destruct (last_of _ l x); auto.
      + intros k v. rewrite put_many_lookup. destruct (lastk _ k) as [w|] eqn:E; [|apply rf_rcpt_keys0]. intros _.
        apply lastk_elem in E. apply elem_of_list_fmap in E as (t & E & T). injection E as -> ->.
        rewrite Forall_forall in WL. exists n, (r_hash I t). split; [done|]. split; [by apply WL|done].
      + intros x m. destruct (decide _); [by intros [= <-]|apply rf_nums0].
    - destruct R. split; cbn [block_at header_at latest_at proof_at number_at tx_in rcpt_in code_at insert_code set_db s_db d_block d_header d_tx d_rcpt d_num d_code]; try done.
      intros y. destruct (decide (a = y)) as [<-|N]; [by rewrite lookup_insert|].
      rewrite lookup_insert_ne by (unfold rlp_key; by intros [=]). destruct (decide (x = y)) as [<-|N2]; [by rewrite lookup_insert|].
      rewrite lookup_insert_ne by (unfold rlp_key; by intros [=]). auto.
    - destruct R. split; cbn [block_at header_at latest_at proof_at number_at tx_in rcpt_in code_at update_latest_proof set_db s_db d_block d_header d_tx d_rcpt d_num d_code]; try done.
      + intros n Hn. rewrite lookup_insert_ne; [auto|]. intros E. symmetry in E. by apply height_proof in E.
      + rewrite lookup_insert_ne; [done|]. intros E. by apply latest_keys.
      + by rewrite lookup_insert.
  Qed.

  (* ---------------------------------------------------------------------- *)
  (** * Caches *)

  (** Every cached value is the specified answer. *)
  Record fits (h : list event) (c : scache I) : Prop := {
    ft_block : forall n b, c_blocks I c !! n = Some b -> block_at h n = Some b /\ (n < 2 ^ 64)%N;
    ft_num : forall x n, c_nums I c !! x = Some n -> number_at h x = Some n;
    ft_header : forall n b, c_headers I c !! n = Some b -> header_at h n = Some b /\ (n < 2 ^ 64)%N;
    ft_tx : forall x t, c_txs I c !! x = Some t -> tx_at h x = Some t;
    ft_code : forall x v, c_codes I c !! x = Some v -> code_at h x = Some v;
    ft_rcpt : forall x t, c_rcpts I c !! x = Some t -> rcpt_at h x = Some t }.

  (** What reading returns, and that it keeps the caches right. *)
  Section Reads.
    Variable h : list event.
    Variable s : sstate I.
    Hypothesis R : refines h (s_db I s).
    Hypothesis F : fits h (s_cache I s).

    Lemma read_block_at n : (n < 2 ^ 64)%N -> read_block I (s_db I s) (height_key n) = Ok (block_at h n).
    Proof using R. intros Hn. unfold read_block. rewrite (rf_block _ _ R n Hn). by destruct (block_at h n). Qed.

    Lemma get_block_reads n : (n < 2 ^ 64)%N -> (get_block I s n).2 = Ok (block_at h n) /\ fits h (s_cache I (get_block I s n).1).
    Proof using R F.
      intros Hn. unfold get_block. destruct (c_blocks I (s_cache I s) !! n) as [b|] eqn:C.
      - split; [|done]. cbn. apply (ft_block _ _ F) in C as [C _]. by rewrite C.
      - rewrite read_block_at by done. destruct (block_at h n) as [b|] eqn:B; [|done]. split; [done|].
        destruct F as [F1 F2 F3 F4 F5 F6]. split; try assumption. cbn. intros m c. destruct (decide (n = m)) as [<-|N].
        + rewrite lookup_insert. by intros [= <-].
        + rewrite lookup_insert_ne by done. apply F1.
    Qed.
    Lemma get_number_reads x : (get_number I s x).2 = number_at h x /\ fits h (s_cache I (get_number I s x).1).
    Proof using R F.
      unfold get_number. destruct (c_nums I (s_cache I s) !! x) as [n|] eqn:C.
      - split; [|done]. cbn. by rewrite (ft_num _ _ F _ _ C).
      - rewrite (rf_num _ _ R). destruct (number_at h x) as [n|] eqn:B; [|done]. split; [done|].
        destruct F as [F1 F2 F3 F4 F5 F6]. split; try assumption. cbn. intros m c. destruct (decide (x = m)) as [<-|N].
        + rewrite lookup_insert. by intros [= <-].
        + rewrite lookup_insert_ne by done. apply F2.
    Qed.
    Lemma get_header_reads n : (n < 2 ^ 64)%N ->
      (get_block_header I s n).2 = Ok (header_at h n) /\ fits h (s_cache I (get_block_header I s n).1).
    Proof using R F.
      intros Hn. unfold get_block_header. destruct (c_headers I (s_cache I s) !! n) as [b|] eqn:C.
      - split; [|done]. cbn. apply (ft_header _ _ F) in C as [C _]. by rewrite C.
      - rewrite (rf_header _ _ R n Hn). destruct (header_at h n) as [b|] eqn:B.
        + split; [done|]. destruct F as [F1 F2 F3 F4 F5 F6]. split; try assumption. cbn. intros m c. destruct (decide (n = m)) as [<-|N].
          * rewrite lookup_insert. by intros [= <-].
          * rewrite lookup_insert_ne by done. apply F3.
        + destruct (get_block_reads n Hn) as [G1 G2]. destruct (get_block I s n) as [s' o]. cbn in G1, G2. subst o. cbn.
          split; [|done]. destruct (block_at h n) as [b|] eqn:BB; [|done]. by apply (rf_heads _ _ R) in BB.
    Qed.
    Lemma get_code_reads x : (get_code_by_hash I s x).2 = code_at h x /\ fits h (s_cache I (get_code_by_hash I s x).1).
    Proof using R F.
      unfold get_code_by_hash. destruct (c_codes I (s_cache I s) !! x) as [n|] eqn:C.
      - split; [|done]. cbn. by rewrite (ft_code _ _ F _ _ C).
      - rewrite (rf_code _ _ R). destruct (code_at h x) as [n|] eqn:B; [|done]. split; [done|].
        destruct F as [F1 F2 F3 F4 F5 F6]. split; try assumption. cbn. intros m c. destruct (decide (x = m)) as [<-|N].
        + rewrite lookup_insert. by intros [= <-].
        + rewrite lookup_insert_ne by done. apply F5.
    Qed.
    Lemma get_code_addr_reads a : (get_code_by_address I s a).2 = code_by_address_at h a /\ fits h (s_cache I (get_code_by_address I s a).1).
    Proof using R F.
      unfold get_code_by_address, code_by_address_at. rewrite (rf_code _ _ R). destruct (code_at h a) as [x|]; [|done].
      destruct (_ =? _)%nat; [|done]. destruct (get_code_reads x) as [G1 G2]. destruct (get_code_by_hash I s x). cbn in *. by subst.
    Qed.
    Lemma get_tx_reads x : (get_tx I s x).2 = tx_at h x /\ fits h (s_cache I (get_tx I s x).1).
    Proof using R F.
      unfold get_tx. destruct (c_txs I (s_cache I s) !! x) as [n|] eqn:C.
      - split; [|done]. cbn. by rewrite (ft_tx _ _ F _ _ C).
      - rewrite (rf_num _ _ R). unfold tx_at. destruct (number_at h x) as [n|] eqn:B; [|done].
        pose proof (rf_nums _ _ R _ _ B) as Hn. rewrite (rf_tx _ _ R _ _ Hn). destruct (tx_in h n x) as [t|] eqn:T; [|done].
        split; [done|]. destruct F as [F1 F2 F3 F4 F5 F6]. split; try assumption. cbn. intros m c. destruct (decide (x = m)) as [<-|N].
        + rewrite lookup_insert. intros [= <-]. unfold tx_at. by rewrite B.
        + rewrite lookup_insert_ne by done. apply F4.
    Qed.
    Lemma get_rcpt_reads x : (get_receipt I s x).2 = rcpt_at h x /\ fits h (s_cache I (get_receipt I s x).1).
    Proof using R F.
      unfold get_receipt. destruct (c_rcpts I (s_cache I s) !! x) as [n|] eqn:C.
      - split; [|done]. cbn. by rewrite (ft_rcpt _ _ F _ _ C).
      - rewrite (rf_num _ _ R). unfold rcpt_at. destruct (number_at h x) as [n|] eqn:B; [|done].
        pose proof (rf_nums _ _ R _ _ B) as Hn. rewrite (rf_rcpt _ _ R _ _ Hn). destruct (rcpt_in h n x) as [t|] eqn:T; [|done].
        split; [done|]. destruct F as [F1 F2 F3 F4 F5 F6]. split; try assumption. cbn. intros m c. destruct (decide (x = m)) as [<-|N].
        + rewrite lookup_insert. intros [= <-]. unfold rcpt_at. by rewrite B.
        + rewrite lookup_insert_ne by done. apply F6.
    Qed.
  End Reads.
  Lemma get_by_hash_reads h s x : refines h (s_db I s) -> fits h (s_cache I s) ->
    (get_block_by_hash I s x).2 = Ok (by_hash_at h x) /\ fits h (s_cache I (get_block_by_hash I s x).1).
  Proof using.
    intros R F. unfold get_block_by_hash, by_hash_at. destruct (get_number_reads h s R F x) as [G1 G2].
    pose proof (get_number_db s x) as D. destruct (get_number I s x) as [s' o]. cbn in G1, G2, D. subst o.
    destruct (number_at h x) as [n|] eqn:B; [|done]. apply get_block_reads; [by rewrite D|done|]. by eapply rf_nums.
  Qed.

  Lemma fits_empty h : fits h (cache0 I).
  Proof using. split; cbn; intros *; by rewrite lookup_empty. Qed.
  Lemma fits_evict h c k : fits h c -> fits h (evict I c k).
  Proof using.
    intros [F1 F2 F3 F4 F5 F6]. destruct k as [k|k|k|k|k|k]; split; try assumption; cbn; intros y v;
      (destruct (decide (k = y)) as [<-|N]; [by rewrite lookup_delete|rewrite lookup_delete_ne by done; auto]).
  Qed.

  (** No write replaces an answer that was already known. *)
  Definition keeps (h h' : list event) : Prop :=
    (forall n b, block_at h n = Some b -> block_at h' n = Some b) /\
    (forall n b, header_at h n = Some b -> header_at h' n = Some b) /\
    (forall x n, number_at h x = Some n -> number_at h' x = Some n) /\
    (forall x t, tx_at h x = Some t -> tx_at h' x = Some t) /\
    (forall x t, rcpt_at h x = Some t -> rcpt_at h' x = Some t) /\
    (forall x v, code_at h x = Some v -> code_at h' x = Some v).
  Fixpoint stable (h : list event) : Prop :=
    match h with [] => True | e :: r => keeps r (e :: r) /\ stable r end.

  Lemma fits_keeps h h' c : keeps h h' -> fits h c -> fits h' c.
  Proof using.
    intros (K1 & K2 & K3 & K4 & K5 & K6) [F1 F2 F3 F4 F5 F6]. split.
    - intros n b C. apply F1 in C as [C L]. split; [by apply K1|done].
    - intros x n C. by apply K3, F2.
    - intros n b C. apply F3 in C as [C L]. split; [by apply K2|done].
    - intros x n C. by apply K4, F4.
    - intros x n C. by apply K6, F5.
    - intros x n C. by apply K5, F6.
  Qed.

  Lemma srun_fits h : wf_hist h -> stable h -> fits h (s_cache I (srun I h)).
  Proof using.
    induction h as [|e h IH]; intros W ST; [apply fits_empty|].
    apply Forall_cons in W as [We W]. destruct ST as [K ST]. specialize (IH W ST). cbn [srun].
    pose proof (srun_refines h W) as R. apply (fits_keeps h); [done|].
    generalize dependent (srun I h). intros s F R.
    destruct e as [b|b|b|n|n l|n l|a x c|p|n|n|x|x|x|x|x|x|k|]; cbn [sstep]; try exact F; cbn in We.
    - by apply get_block_reads.
    - by apply get_header_reads.
    - by apply get_number_reads.
    - by apply get_by_hash_reads.
    - by apply get_tx_reads.
    - by apply get_rcpt_reads.
    - by apply get_code_reads.
    - by apply get_code_addr_reads.
    - by apply fits_evict.
    - apply fits_empty.
  Qed.

  (** All the answers of a state. *)
  Definition answers (s : sstate I) (h : list event) : Prop :=
    (forall n, (n < 2 ^ 64)%N -> (get_block I s n).2 = Ok (block_at h n)) /\
    (forall n, (n < 2 ^ 64)%N -> (get_block_header I s n).2 = Ok (header_at h n)) /\
    (forall x, (get_number I s x).2 = number_at h x) /\
    (forall x, (get_block_by_hash I s x).2 = Ok (by_hash_at h x)) /\
    (forall x, (get_tx I s x).2 = tx_at h x) /\
    (forall x, (get_receipt I s x).2 = rcpt_at h x) /\
    (forall x, (get_code_by_hash I s x).2 = code_at h x) /\
    (forall x, (get_code_by_address I s x).2 = code_by_address_at h x).
  Lemma answers_of h s : refines h (s_db I s) -> fits h (s_cache I s) -> answers s h.
  Proof using.
    intros R F. unfold answers.
    split; [intros n Hn; by apply get_block_reads|]. split; [intros n Hn; by apply get_header_reads|].
    split; [intros n; by apply get_number_reads|]. split; [intros n; by apply get_by_hash_reads|].
    split; [intros n; by apply get_tx_reads|]. split; [intros n; by apply get_rcpt_reads|].
    split; [intros n; by apply get_code_reads|]. intros n; by apply get_code_addr_reads.
  Qed.

  (** After any history whatsoever, overwriting and removals included, a freshly opened store answers
      every query with what was written last. *)
  Theorem C32_cold_reads : forall h, wf_hist h -> answers (restart I (srun I h)) h.
  Proof using. intros h W. apply answers_of; [by apply srun_refines|apply fits_empty]. Qed.

  (** Latest block, its header and the latest proof: what was written last, restarted or not. *)
  Lemma latest_fields h : wf_hist h ->
    (s_latest I (srun I h) = None \/ s_latest I (srun I h) = latest_at h) /\
    (s_proof I (srun I h) = None \/ s_proof I (srun I h) = proof_at h).
  Proof using.
    assert (KL : forall s e, match e with EGetBlock _ _ | EGetHeader _ _ | EGetNumber _ _ | EGetByHash _ _ | EGetTx _ _
                                        | EGetRcpt _ _ | EGetCode _ _ | EGetCodeAt _ _ => True | _ => False end ->
                 s_latest I (sstep I s e) = s_latest I s /\ s_proof I (sstep I s e) = s_proof I s).
    { assert (GB : forall s n, s_latest I (get_block I s n).1 = s_latest I s /\ s_proof I (get_block I s n).1 = s_proof I s).
      { intros s n. unfold get_block. destruct (c_blocks _ _ !! n); [done|]. by destruct (read_block _ _ _) as [[b|]| |]. }
      assert (GN : forall s x, s_latest I (get_number I s x).1 = s_latest I s /\ s_proof I (get_number I s x).1 = s_proof I s).
      { intros s x. unfold get_number. destruct (c_nums _ _ !! x); [done|]. by destruct (d_num _ _ !! _). }
      assert (GC : forall s x, s_latest I (get_code_by_hash I s x).1 = s_latest I s /\ s_proof I (get_code_by_hash I s x).1 = s_proof I s).
      { intros s x. unfold get_code_by_hash. destruct (c_codes _ _ !! x); [done|]. by destruct (d_code _ _ !! _). }
      intros s e K. destruct e as [b|b|b|n|n l|n l|a x c|p|n|n|x|x|x|x|x|x|k|]; try done; cbn [sstep].
      - apply GB.
      - unfold get_block_header. destruct (c_headers _ _ !! n); [done|]. destruct (d_header _ _ !! _); [done|].
        specialize (GB s n). by destruct (get_block I s n) as [s' [o| |]].
      - apply GN.
      - unfold get_block_by_hash. specialize (GN s x). destruct (get_number I s x) as [s' [n|]]; [|done].
        destruct (GB s' n) as [-> ->]. done.
      - unfold get_tx. destruct (c_txs _ _ !! x); [done|]. destruct (d_num _ _ !! _); [|done]. by destruct (d_tx _ _ !! _).
      - unfold get_receipt. destruct (c_rcpts _ _ !! x); [done|]. destruct (d_num _ _ !! _); [|done]. by destruct (d_rcpt _ _ !! _).
      - apply GC.
      - unfold get_code_by_address. destruct (d_code _ _ !! _) as [y|]; [|done]. destruct (_ =? _)%nat; [|done].
        specialize (GC s y). by destruct (get_code_by_hash I s y). }
    induction h as [|e h IH]; intros W; [by split; left|]. apply Forall_cons in W as [_ W]. specialize (IH W).
    cbn [srun]. generalize dependent (srun I h). intros s IH.
    pose proof (KL s e) as K.
    destruct e as [b|b|b|n|n l|n l|a x c|p|n|n|x|x|x|x|x|x|k|]; cbn [latest_at proof_at];
      try (destruct (K Logic.I) as [-> ->]; exact IH); cbn; destruct IH as [IH1 IH2]; split; try assumption;
      try (by left); by right.
  Qed.
  Theorem C32_latest : forall h, wf_hist h ->
    get_latest_block I (srun I h) = match latest_at h with Some b => Ok b | None => Err end /\
    get_latest_block_header I (srun I h) = match latest_at h with Some b => Ok (b_header I b) | None => Err end /\
    get_latest_proof I (srun I h) = match proof_at h with Some p => Ok p | None => Err end.
  Proof using.
    intros h W. pose proof (srun_refines h W) as R. destruct (latest_fields h W) as [L P].
    unfold get_latest_block, get_latest_block_header, get_latest_proof, read_block, read_proof.
    rewrite (rf_latest _ _ R), (rf_proof _ _ R).
    destruct L as [-> | ->], P as [-> | ->]; destruct (latest_at h), (proof_at h); done.
  Qed.

  (** C33: when no write replaces a known answer, reading through the caches (any sizes, any evictions)
      gives the same as reading the database directly. *)
  Theorem C33_warm_is_cold : forall h, wf_hist h -> stable h -> answers (srun I h) h /\ answers (restart I (srun I h)) h.
  Proof using.
    intros h W ST. split; [|by apply C32_cold_reads]. apply answers_of; [by apply srun_refines|by apply srun_fits].
  Qed.

  (* ---------------------------------------------------------------------- *)
  (** * Single-valued histories: no key is ever written with two values *)

  Record agrees (FB : N -> blk I) (FN : bytes -> N) (FT : bytes -> tx I) (FR : bytes -> receipt I) (FC : bytes -> bytes) (e : event) : Prop := {
    ag_block : match e with ESave _ b | ESet _ b => FB (num b) = b /\ FN (b_hash I b) = num b | _ => True end;
    ag_txs : match e with ETxs _ n l => forall t, t ∈ l -> FT (t_hash I t) = t /\ FN (t_hash I t) = n | _ => True end;
    ag_rcpts : match e with ERcpts _ n l => forall t, t ∈ l -> FR (r_hash I t) = t /\ FN (r_hash I t) = n | _ => True end;
    ag_code : match e with ECode _ a x c => FC a = x /\ FC x = c | _ => True end;
    ag_remove : match e with ERemove _ _ => False | _ => True end }.
  Definition single_valued (h : list event) : Prop := exists FB FN FT FR FC, Forall (agrees FB FN FT FR FC) h.

  Section Single.
    Variables (FB : N -> blk I) (FN : bytes -> N) (FT : bytes -> tx I) (FR : bytes -> receipt I) (FC : bytes -> bytes).
    Notation ok := (Forall (agrees FB FN FT FR FC)).

    Lemma sv_block h n b : ok h -> block_at h n = Some b -> FB n = b.
    Proof using.
      induction h as [|e h IH]; intros A; [done|]. apply Forall_cons in A as [A AH]. specialize (IH AH).
      destruct A as [A _ _ _ R]. destruct e; cbn; try done; destruct (decide _) as [<-|]; try done; intros [= <-]; by destruct A.
    Qed.
    Lemma sv_header h n b : ok h -> header_at h n = Some b -> b_header I (FB n) = b.
    Proof using.
      induction h as [|e h IH]; intros A; [done|]. apply Forall_cons in A as [A AH]. specialize (IH AH).
      destruct A as [A _ _ _ R]. destruct e; cbn; try done; destruct (decide _) as [<-|]; try done; intros [= <-]; by destruct A as [-> _].
    Qed.
    Lemma sv_num h x n : ok h -> number_at h x = Some n -> FN x = n.
    Proof using.
      induction h as [|e h IH]; intros A; [done|]. apply Forall_cons in A as [A AH]. specialize (IH AH).
      destruct A as [A AT AR _ _]. destruct e; cbn; try done.
      - destruct (decide _) as [<-|]; [|done]. intros [= <-]. by destruct A.
      - destruct (decide _) as [<-|]; [|done]. intros [= <-]. by destruct A.
      - destruct (decide _) as [E|]; [|done]. intros [= <-]. apply elem_of_list_fmap in E as (t & -> & T). by apply AT.
      - destruct (decide _) as [E|]; [|done]. intros [= <-]. apply elem_of_list_fmap in E as (t & -> & T). by apply AR.
    Qed.
    Lemma sv_tx h n x t : ok h -> tx_in h n x = Some t -> FT x = t /\ t_hash I t = x.
    Proof using.
      induction h as [|e h IH]; intros A; [done|]. apply Forall_cons in A as [A AH]. specialize (IH AH).
      destruct A as [_ AT _ _ _]. destruct e; cbn; try done. destruct (decide _) as [<-|]; [|done].
      destruct (last_of _ _ _) as [u|] eqn:L; [|done]. intros [= <-]. apply last_of_elem in L as [L <-]. split; [by apply AT|done].
    Qed.
    Lemma sv_rcpt h n x t : ok h -> rcpt_in h n x = Some t -> FR x = t /\ r_hash I t = x.
    Proof using.
      induction h as [|e h IH]; intros A; [done|]. apply Forall_cons in A as [A AH]. specialize (IH AH).
      destruct A as [_ _ AR _ _]. destruct e; cbn; try done. destruct (decide _) as [<-|]; [|done].
      destruct (last_of _ _ _) as [u|] eqn:L; [|done]. intros [= <-]. apply last_of_elem in L as [L <-]. split; [by apply AR|done].
    Qed.
    Lemma sv_code h x v : ok h -> code_at h x = Some v -> FC x = v.
    Proof using.
      induction h as [|e h IH]; intros A; [done|]. apply Forall_cons in A as [A AH]. specialize (IH AH).
      destruct A as [_ _ _ AC _]. destruct e; cbn; try done. destruct AC as [<- <-].
      destruct (decide _) as [<-|]; [by intros [= <-]|]. destruct (decide _) as [<-|]; [by intros [= <-]|]. done.
    Qed.

    (** known answers stay: each is present in the longer history too, and its value is fixed *)
    Lemma sv_keeps e h : ok (e :: h) -> keeps h (e :: h).
    Proof using.
      intros A0. pose proof A0 as A. apply Forall_cons in A as [A AH].
      assert (K3 : forall x n, number_at h x = Some n -> number_at (e :: h) x = Some n).
      { intros x n E. assert (N : number_at (e :: h) x <> None).
        { destruct e; cbn; try congruence; destruct (decide _); congruence. }
        destruct (number_at (e :: h) x) as [m|] eqn:M; [|done]. apply (sv_num _ _ _ AH) in E. apply (sv_num _ _ _ A0) in M. congruence. }
      split.
      { intros n b E. assert (N : block_at (e :: h) n <> None).
        { destruct A as [_ _ _ _ R]. destruct e; cbn; try congruence; try done; destruct (decide _); congruence. }
        destruct (block_at (e :: h) n) as [m|] eqn:M; [|done]. apply (sv_block _ _ _ AH) in E. apply (sv_block _ _ _ A0) in M. congruence. }
      split.
      { intros n b E. assert (N : header_at (e :: h) n <> None).
        { destruct e; cbn; try congruence; destruct (decide _); congruence. }
        destruct (header_at (e :: h) n) as [m|] eqn:M; [|done]. apply (sv_header _ _ _ AH) in E. apply (sv_header _ _ _ A0) in M. congruence. }
      split; [exact K3|]. split; [|split].
      - intros x t. unfold tx_at. destruct (number_at h x) as [n|] eqn:E; [|done]. rewrite (K3 _ _ E). intros T.
        assert (N : tx_in (e :: h) n x <> None).
        { destruct e; cbn; try congruence. destruct (decide _); [|congruence]. destruct (last_of _ _ _); congruence. }
        destruct (tx_in (e :: h) n x) as [m|] eqn:M; [|done]. apply (sv_tx _ _ _ _ AH) in T as [T _]. apply (sv_tx _ _ _ _ A0) in M as [M _]. congruence.
      - intros x t. unfold rcpt_at. destruct (number_at h x) as [n|] eqn:E; [|done]. rewrite (K3 _ _ E). intros T.
        assert (N : rcpt_in (e :: h) n x <> None).
        { destruct e; cbn; try congruence. destruct (decide _); [|congruence]. destruct (last_of _ _ _); congruence. }
        destruct (rcpt_in (e :: h) n x) as [m|] eqn:M; [|done]. apply (sv_rcpt _ _ _ _ AH) in T as [T _]. apply (sv_rcpt _ _ _ _ A0) in M as [M _]. congruence.
      - intros x v E. assert (N : code_at (e :: h) x <> None).
        { destruct e; cbn; try congruence. destruct (decide _); [congruence|]. destruct (decide _); congruence. }
        destruct (code_at (e :: h) x) as [m|] eqn:M; [|done]. apply (sv_code _ _ _ AH) in E. apply (sv_code _ _ _ A0) in M. congruence.
    Qed.
    Lemma sv_stable h : ok h -> stable h.
    Proof using.
      induction h as [|e h IH]; intros A; [done|]. split; [by apply sv_keeps|]. apply IH. by apply Forall_cons in A as [_ A].
    Qed.

    (** every write can be read back *)
    Lemma keeps_block h b e : ok h -> (e = ESave I b \/ e = ESet I b) -> e ∈ h ->
      block_at h (num b) = Some b /\ header_at h (num b) = Some (b_header I b) /\ number_at h (b_hash I b) = Some (num b).
    Proof using.
      intros A E IN. induction h as [|e' h IH]; [by apply elem_of_nil in IN|]. apply elem_of_cons in IN as [<-|IN].
      - destruct E as [-> | ->]; cbn; rewrite !decide_True by done; done.
      - destruct (sv_keeps _ _ A) as (K1 & K2 & K3 & _). apply Forall_cons in A as [_ A]. destruct (IH A IN) as (B1 & B2 & B3). auto.
    Qed.
    Lemma keeps_tx h n l t : ok h -> ETxs I n l ∈ h -> t ∈ l -> tx_at h (t_hash I t) = Some t /\ number_at h (t_hash I t) = Some n.
    Proof using.
      intros A IN T. induction h as [|e' h IH]; [by apply elem_of_nil in IN|]. apply elem_of_cons in IN as [<-|IN].
      - pose proof A as A0. apply Forall_cons in A as [[_ AT _ _ _] _].
        assert (N : number_at (ETxs I n l :: h) (t_hash I t) = Some n).
        { cbn. rewrite decide_True; [done|]. apply elem_of_list_fmap. by exists t. }
        split; [|done]. unfold tx_at. rewrite N. cbn. rewrite decide_True by done.
        destruct (last_of _ l _) as [u|] eqn:L.
        + apply last_of_elem in L as [L E]. apply AT in L as [L _]. apply AT in T as [T _]. congruence.
        + apply last_of_none in L. exfalso. apply L, elem_of_list_fmap. by exists t.
      - destruct (sv_keeps _ _ A) as (_ & _ & K3 & K4 & _). apply Forall_cons in A as [_ A]. destruct (IH A IN) as (B1 & B2). auto.
    Qed.
    Lemma keeps_rcpt h n l t : ok h -> ERcpts I n l ∈ h -> t ∈ l -> rcpt_at h (r_hash I t) = Some t /\ number_at h (r_hash I t) = Some n.
    Proof using.
      intros A IN T. induction h as [|e' h IH]; [by apply elem_of_nil in IN|]. apply elem_of_cons in IN as [<-|IN].
      - pose proof A as A0. apply Forall_cons in A as [[_ _ AT _ _] _].
        assert (N : number_at (ERcpts I n l :: h) (r_hash I t) = Some n).
        { cbn. rewrite decide_True; [done|]. apply elem_of_list_fmap. by exists t. }
        split; [|done]. unfold rcpt_at. rewrite N. cbn. rewrite decide_True by done.
        destruct (last_of _ l _) as [u|] eqn:L.
        + apply last_of_elem in L as [L E]. apply AT in L as [L _]. apply AT in T as [T _]. congruence.
        + apply last_of_none in L. exfalso. apply L, elem_of_list_fmap. by exists t.
      - destruct (sv_keeps _ _ A) as (_ & _ & K3 & _ & K5 & _). apply Forall_cons in A as [_ A]. destruct (IH A IN) as (B1 & B2). auto.
    Qed.
    Lemma keeps_code h a x c : ok h -> ECode I a x c ∈ h -> code_at h a = Some x /\ code_at h x = Some c.
    Proof using.
      intros A IN. induction h as [|e' h IH]; [by apply elem_of_nil in IN|]. apply elem_of_cons in IN as [<-|IN].
      - pose proof A as A0. apply Forall_cons in A as [[_ _ _ [A1 A2] _] _]. cbn. rewrite decide_True by done. split; [done|].
        destruct (decide (a = x)) as [->|]; [congruence|]. by rewrite decide_True.
      - destruct (sv_keeps _ _ A) as (_ & _ & _ & _ & _ & K6). apply Forall_cons in A as [_ A]. destruct (IH A IN) as (B1 & B2). auto.
    Qed.
  End Single.

  (** Whatever else was saved, read or evicted, before or after, and with or without a restart: *)
  Theorem C32_block_roundtrip : forall h b, wf_hist h -> single_valued h -> (ESave I b ∈ h \/ ESet I b ∈ h) ->
    (get_block I (srun I h) (num b)).2 = Ok (Some b) /\
    (get_block_header I (srun I h) (num b)).2 = Ok (Some (b_header I b)) /\
    (get_number I (srun I h) (b_hash I b)).2 = Some (num b) /\
    (get_block_by_hash I (srun I h) (b_hash I b)).2 = Ok (Some b).
  Proof using.
    intros h b W (FB & FN & FT & FR & FC & A) IN.
    destruct (C33_warm_is_cold h W (sv_stable _ _ _ _ _ h A)) as [(R1 & R2 & R3 & R4 & _) _].
    assert (Hb : (num b < 2 ^ 64)%N) by (rewrite Forall_forall in W; destruct IN as [IN|IN]; exact (W _ IN)).
    assert (K : block_at h (num b) = Some b /\ header_at h (num b) = Some (b_header I b) /\ number_at h (b_hash I b) = Some (num b)).
    { destruct IN as [IN|IN]; eapply keeps_block; try exact A; try exact IN; auto. }
    destruct K as (K1 & K2 & K3). rewrite R1, R2, R3, R4 by done. unfold by_hash_at. rewrite K1, K2, K3, K1. done.
  Qed.
  Theorem C32_tx_roundtrip : forall h n l t, wf_hist h -> single_valued h -> ETxs I n l ∈ h -> t ∈ l ->
    (get_tx I (srun I h) (t_hash I t)).2 = Some t.
  Proof using.
    intros h n l t W (FB & FN & FT & FR & FC & A) IN T.
    destruct (C33_warm_is_cold h W (sv_stable _ _ _ _ _ h A)) as [(_ & _ & _ & _ & R & _) _]. rewrite R.
    by eapply keeps_tx.
  Qed.
  Theorem C32_receipt_roundtrip : forall h n l t, wf_hist h -> single_valued h -> ERcpts I n l ∈ h -> t ∈ l ->
    (get_receipt I (srun I h) (r_hash I t)).2 = Some t.
  Proof using.
    intros h n l t W (FB & FN & FT & FR & FC & A) IN T.
    destruct (C33_warm_is_cold h W (sv_stable _ _ _ _ _ h A)) as [(_ & _ & _ & _ & _ & R & _) _]. rewrite R.
    by eapply keeps_rcpt.
  Qed.
  Theorem C32_code_roundtrip : forall h a x c, wf_hist h -> single_valued h -> ECode I a x c ∈ h -> length x = 32 ->
    (get_code_by_hash I (srun I h) x).2 = Some c /\ (get_code_by_address I (srun I h) a).2 = Ok (Some c).
  Proof using.
    intros h a x c W (FB & FN & FT & FR & FC & A) IN L.
    destruct (C33_warm_is_cold h W (sv_stable _ _ _ _ _ h A)) as [(_ & _ & _ & _ & _ & _ & R1 & R2) _]. rewrite R1, R2.
    destruct (keeps_code _ _ _ _ _ h a x c A IN) as [K1 K2]. unfold code_by_address_at. rewrite K1, K2. by rewrite L.
  Qed.

  (** Keys no write mentions return nothing; this needs no assumption on the caches. *)
  Definition mentions_height (e : event) (n : N) : Prop :=
    match e with ESave _ b | ESet _ b => num b = n | _ => False end.
  Definition mentions_hash (e : event) (x : bytes) : Prop :=
    match e with
    | ESave _ b | ESet _ b => b_hash I b = x
    | ETxs _ _ l => x ∈ map (t_hash I) l
    | ERcpts _ _ l => x ∈ map (r_hash I) l
    | _ => False
    end.
  Definition mentions_code (e : event) (x : bytes) : Prop :=
    match e with ECode _ a y _ => a = x \/ y = x | _ => False end.

  (** caches only ever hold keys that were written *)
  Record known (h : list event) (c : scache I) : Prop := {
    kn_block : forall n b, c_blocks I c !! n = Some b -> exists e, e ∈ h /\ mentions_height e n;
    kn_num : forall x b, c_nums I c !! x = Some b -> exists e, e ∈ h /\ mentions_hash e x;
    kn_header : forall n b, c_headers I c !! n = Some b -> exists e, e ∈ h /\ mentions_height e n;
    kn_tx : forall x b, c_txs I c !! x = Some b -> exists e, e ∈ h /\ mentions_hash e x;
    kn_code : forall x b, c_codes I c !! x = Some b -> exists e, e ∈ h /\ mentions_code e x;
    kn_rcpt : forall x b, c_rcpts I c !! x = Some b -> exists e, e ∈ h /\ mentions_hash e x }.
  Lemma block_mentions h n b : block_at h n = Some b -> exists e, e ∈ h /\ mentions_height e n.
  Proof using.
    induction h as [|e h IH]; [done|]. intros E.
    assert (D : mentions_height e n \/ block_at h n = Some b).
    { destruct e; cbn in *; auto; destruct (decide _); auto; done. }
    destruct D as [D|D]; [exists e; split; [apply elem_of_cons; by left|done]|].
    destruct (IH D) as (e' & IN & M). exists e'. split; [apply elem_of_cons; by right|done].
  Qed.
  Lemma header_mentions h n b : header_at h n = Some b -> exists e, e ∈ h /\ mentions_height e n.
  Proof using.
    induction h as [|e h IH]; [done|]. intros E.
    assert (D : mentions_height e n \/ header_at h n = Some b).
    { destruct e; cbn in *; auto; destruct (decide _); auto; done. }
    destruct D as [D|D]; [exists e; split; [apply elem_of_cons; by left|done]|].
    destruct (IH D) as (e' & IN & M). exists e'. split; [apply elem_of_cons; by right|done].
  Qed.
  Lemma num_mentions h n b : number_at h n = Some b -> exists e, e ∈ h /\ mentions_hash e n.
  Proof using.
    induction h as [|e h IH]; [done|]. intros E.
    assert (D : mentions_hash e n \/ number_at h n = Some b).
    { destruct e; cbn in *; auto; destruct (decide _); auto; done. }
    destruct D as [D|D]; [exists e; split; [apply elem_of_cons; by left|done]|].
    destruct (IH D) as (e' & IN & M). exists e'. split; [apply elem_of_cons; by right|done].
  Qed.
  Lemma code_mentions h n b : code_at h n = Some b -> exists e, e ∈ h /\ mentions_code e n.
  Proof using.
    induction h as [|e h IH]; [done|]. intros E.
    assert (D : mentions_code e n \/ code_at h n = Some b).
    { destruct e; cbn in *; auto. destruct (decide _); auto. destruct (decide _); auto. }
    destruct D as [D|D]; [exists e; split; [apply elem_of_cons; by left|done]|].
    destruct (IH D) as (e' & IN & M). exists e'. split; [apply elem_of_cons; by right|done].
  Qed.

  Lemma known_more e h c : known h c -> known (e :: h) c.
  Proof using.
    intros [K1 K2 K3 K4 K5 K6]. split; intros x b E;
      [apply K1 in E|apply K2 in E|apply K3 in E|apply K4 in E|apply K5 in E|apply K6 in E];
      destruct E as (e' & IN & M); exists e'; (split; [apply elem_of_cons; by right|done]).
  Qed.
  Lemma known_evict h c k : known h c -> known h (evict I c k).
  Proof using.
    intros [F1 F2 F3 F4 F5 F6]. destruct k as [k|k|k|k|k|k]; split; try assumption; cbn; intros y v;
      (destruct (decide (k = y)) as [<-|N]; [by rewrite lookup_delete|rewrite lookup_delete_ne by done; eauto]).
  Qed.

  Lemma known_get_block h s n : (n < 2 ^ 64)%N -> refines h (s_db I s) -> known h (s_cache I s) -> known h (s_cache I (get_block I s n).1).
  Proof using.
    intros Hn R K. unfold get_block. destruct (c_blocks _ _ !! n) eqn:C; [done|].
    rewrite (read_block_at h s R n Hn). destruct (block_at h n) as [b|] eqn:B; [|done].
    destruct K as [K1 K2 K3 K4 K5 K6]. split; try assumption. cbn. intros m c. destruct (decide (n = m)) as [<-|N].
    - intros _. by eapply block_mentions.
    - rewrite lookup_insert_ne by done. apply K1.
  Qed.
  Lemma known_get_number h s x : refines h (s_db I s) -> known h (s_cache I s) -> known h (s_cache I (get_number I s x).1).
  Proof using.
    intros R K. unfold get_number. destruct (c_nums _ _ !! x) eqn:C; [done|].
    rewrite (rf_num _ _ R x). destruct (number_at h x) as [b|] eqn:B; [|done].
    destruct K as [K1 K2 K3 K4 K5 K6]. split; try assumption. cbn. intros m c. destruct (decide (x = m)) as [<-|N].
    - intros _. by eapply num_mentions.
    - rewrite lookup_insert_ne by done. apply K2.
  Qed.
  Lemma known_get_code h s x : refines h (s_db I s) -> known h (s_cache I s) -> known h (s_cache I (get_code_by_hash I s x).1).
  Proof using.
    intros R K. unfold get_code_by_hash. destruct (c_codes _ _ !! x) eqn:C; [done|].
    rewrite (rf_code _ _ R x). destruct (code_at h x) as [b|] eqn:B; [|done].
    destruct K as [K1 K2 K3 K4 K5 K6]. split; try assumption. cbn. intros m c. destruct (decide (x = m)) as [<-|N].
    - intros _. by eapply code_mentions.
    - rewrite lookup_insert_ne by done. apply K5.
  Qed.

  Lemma srun_nums h : wf_hist h -> forall x n, c_nums I (s_cache I (srun I h)) !! x = Some n -> (n < 2 ^ 64)%N.
  Proof using.
    intros W. induction h as [|e h IH]; [cbn; intros *; by rewrite lookup_empty|].
    apply Forall_cons in W as [We W]. specialize (IH W). cbn [srun]. pose proof (srun_refines h W) as R.
    generalize dependent (srun I h). intros s IH R.
    assert (GN : forall y x n, c_nums I (s_cache I (get_number I s y).1) !! x = Some n -> (n < 2 ^ 64)%N).
    { intros y x n. unfold get_number. destruct (c_nums _ (s_cache I s) !! y) eqn:C; [apply IH|].
      rewrite (rf_num _ _ R y). destruct (number_at h y) as [m|] eqn:B; [|apply IH]. cbn. destruct (decide (y = x)) as [<-|N].
      - rewrite lookup_insert. intros [= <-]. by eapply rf_nums.
      - rewrite lookup_insert_ne by done. apply IH. }
    assert (GB : forall s' n, c_nums I (s_cache I (get_block I s' n).1) = c_nums I (s_cache I s')).
    { intros s' n. unfold get_block. destruct (c_blocks _ _ !! n); [done|]. by destruct (read_block _ _ _) as [[b|]| |]. }
    destruct e as [b|b|b|n|n l|n l|a x c|p|n|n|x|x|x|x|x|x|k|]; cbn [sstep]; try exact IH; intros y m; try apply IH.
    - rewrite GB. apply IH.
    - unfold get_block_header. destruct (c_headers _ _ !! n); [apply IH|]. destruct (d_header _ _ !! _); [apply IH|].
      specialize (GB s n). destruct (get_block I s n) as [s' [o| |]]; cbn in *; rewrite GB; apply IH.
    - apply GN.
    - unfold get_block_by_hash. specialize (GN x y m). destruct (get_number I s x) as [s' [n|]]; [|exact GN]. rewrite GB. exact GN.
    - unfold get_tx. destruct (c_txs _ _ !! x); [apply IH|]. destruct (d_num _ _ !! _); [|apply IH]. destruct (d_tx _ _ !! _); apply IH.
    - unfold get_receipt. destruct (c_rcpts _ _ !! x); [apply IH|]. destruct (d_num _ _ !! _); [|apply IH]. destruct (d_rcpt _ _ !! _); apply IH.
    - unfold get_code_by_hash. destruct (c_codes _ _ !! x); [apply IH|]. destruct (d_code _ _ !! _); apply IH.
    - unfold get_code_by_address. destruct (d_code _ _ !! _) as [z|]; [|apply IH]. destruct (_ =? _)%nat; [|apply IH].
      assert (GC : c_nums I (s_cache I (get_code_by_hash I s z).1) = c_nums I (s_cache I s)).
      { unfold get_code_by_hash. change (list N) with bytes in z. destruct (c_codes I (s_cache I s) !! z); [done|]. by destruct (d_code _ _ !! _). }
      destruct (get_code_by_hash I s z). cbn in *. rewrite GC. apply IH.
    - destruct k as [k|k|k|k|k|k]; cbn; try apply IH. destruct (decide (k = y)) as [<-|N]; [by rewrite lookup_delete|].
      rewrite lookup_delete_ne by done. apply IH.
    - cbn. by rewrite lookup_empty.
  Qed.
  Lemma srun_known h : wf_hist h -> known h (s_cache I (srun I h)).
  Proof using.
    intros W. induction h as [|e h IH]; [split; cbn; intros *; by rewrite lookup_empty|].
    apply Forall_cons in W as [We W]. specialize (IH W). cbn [srun].
    pose proof (srun_refines h W) as R. apply known_more. pose proof (srun_nums h W) as HN.
    generalize dependent (srun I h). intros s K R HN.
    destruct e as [b|b|b|n|n l|n l|a x c|p|n|n|x|x|x|x|x|x|k|]; cbn [sstep]; try exact K; cbn in We.
    + by apply known_get_block.
    + pose proof (known_get_block h s n We R K) as KB.
      unfold get_block_header. destruct (c_headers _ _ !! n) eqn:C; [done|].
      rewrite (rf_header _ _ R n We). destruct (header_at h n) as [b|] eqn:B.
      * destruct K as [K1 K2 K3 K4 K5 K6]. split; try assumption. cbn. intros m c. destruct (decide (n = m)) as [<-|N].
        -- intros _. by eapply header_mentions.
        -- rewrite lookup_insert_ne by done. apply K3.
      * by destruct (get_block I s n) as [s' [o| |]].
    + by apply known_get_number.
    + pose proof (known_get_number h s x R K) as KN. pose proof (get_number_db s x) as D. unfold get_block_by_hash.
      assert (HN2 : forall n, (get_number I s x).2 = Some n -> (n < 2 ^ 64)%N).
      { intros n. unfold get_number. destruct (c_nums _ _ !! x) eqn:C; [cbn; intros [= <-]; by eapply HN|].
        rewrite (rf_num _ _ R x). destruct (number_at h x) as [m|] eqn:B; [|done]. cbn. intros [= <-]. by eapply rf_nums. }
      destruct (get_number I s x) as [s' [n|]]; [|done]. cbn in *. apply known_get_block; [by apply HN2|by rewrite D|done].
    + unfold get_tx. destruct (c_txs _ _ !! x) eqn:C; [done|]. rewrite (rf_num _ _ R x). destruct (number_at h x) as [n|] eqn:B; [|done].
      destruct (d_tx _ _ !! _) as [t|]; [|done]. destruct K as [K1 K2 K3 K4 K5 K6]. split; try assumption. cbn. intros m c. destruct (decide (x = m)) as [<-|N].
      * intros _. by eapply num_mentions.
      * rewrite lookup_insert_ne by done. apply K4.
    + unfold get_receipt. destruct (c_rcpts _ _ !! x) eqn:C; [done|]. rewrite (rf_num _ _ R x). destruct (number_at h x) as [n|] eqn:B; [|done].
      destruct (d_rcpt _ _ !! _) as [t|]; [|done]. destruct K as [K1 K2 K3 K4 K5 K6]. split; try assumption. cbn. intros m c. destruct (decide (x = m)) as [<-|N].
      * intros _. by eapply num_mentions.
      * rewrite lookup_insert_ne by done. apply K6.
    + by apply known_get_code.
    + unfold get_code_by_address. destruct (d_code _ _ !! _) as [z|]; [|done]. destruct (_ =? _)%nat; [|done].
      pose proof (known_get_code h s z R K) as KC. by destruct (get_code_by_hash I s z).
    + by apply known_evict.
    + split; cbn; intros *; by rewrite lookup_empty.
  Qed.

  Theorem C32_unknown : forall h, wf_hist h ->
    (forall n, (n < 2 ^ 64)%N -> (forall e, e ∈ h -> ~ mentions_height e n) ->
       (get_block I (srun I h) n).2 = Ok None /\ (get_block_header I (srun I h) n).2 = Ok None) /\
    (forall x, (forall e, e ∈ h -> ~ mentions_hash e x) ->
       (get_number I (srun I h) x).2 = None /\ (get_block_by_hash I (srun I h) x).2 = Ok None /\
       (get_tx I (srun I h) x).2 = None /\ (get_receipt I (srun I h) x).2 = None) /\
    (forall x, (forall e, e ∈ h -> ~ mentions_code e x) ->
       (get_code_by_hash I (srun I h) x).2 = None /\ (get_code_by_address I (srun I h) x).2 = Ok None).
  Proof using.
    intros h W. pose proof (srun_refines h W) as R. destruct (srun_known h W) as [K1 K2 K3 K4 K5 K6].
    split; [|split].
    - intros n Hn N.
      assert (B : block_at h n = None).
      { destruct (block_at h n) eqn:E; [|done]. apply block_mentions in E as (e & IN & M). by apply N in M. }
      assert (H : header_at h n = None).
      { destruct (header_at h n) eqn:E; [|done]. apply header_mentions in E as (e & IN & M). by apply N in M. }
      assert (C : c_blocks I (s_cache I (srun I h)) !! n = None).
      { destruct (c_blocks _ _ !! n) eqn:E; [|done]. apply K1 in E as (e & IN & M). by apply N in M. }
      assert (CH : c_headers I (s_cache I (srun I h)) !! n = None).
      { destruct (c_headers _ _ !! n) eqn:E; [|done]. apply K3 in E as (e & IN & M). by apply N in M. }
      assert (G : get_block I (srun I h) n = (srun I h, Ok None)).
      { unfold get_block. rewrite C, (read_block_at h _ R n Hn), B. done. }
      split; [by rewrite G|]. unfold get_block_header. rewrite CH, (rf_header _ _ R n Hn), H, G. done.
    - intros x N.
      assert (B : number_at h x = None).
      { destruct (number_at h x) eqn:E; [|done]. apply num_mentions in E as (e & IN & M). by apply N in M. }
      assert (C : c_nums I (s_cache I (srun I h)) !! x = None).
      { destruct (c_nums _ _ !! x) eqn:E; [|done]. apply K2 in E as (e & IN & M). by apply N in M. }
      assert (CT : c_txs I (s_cache I (srun I h)) !! x = None).
      { destruct (c_txs _ _ !! x) eqn:E; [|done]. apply K4 in E as (e & IN & M). by apply N in M. }
      assert (CR : c_rcpts I (s_cache I (srun I h)) !! x = None).
      { destruct (c_rcpts _ _ !! x) eqn:E; [|done]. apply K6 in E as (e & IN & M). by apply N in M. }
      unfold get_block_by_hash, get_number, get_tx, get_receipt. rewrite C, CT, CR, (rf_num _ _ R x), B. done.
    - intros x N.
      assert (B : code_at h x = None).
      { destruct (code_at h x) eqn:E; [|done]. apply code_mentions in E as (e & IN & M). by apply N in M. }
      assert (C : c_codes I (s_cache I (srun I h)) !! x = None).
      { destruct (c_codes _ _ !! x) eqn:E; [|done]. apply K5 in E as (e & IN & M). by apply N in M. }
      assert (D : d_code I (s_db I (srun I h)) !! rlp_key x = None) by (rewrite (rf_code _ _ R x); exact B).
      split; [unfold get_code_by_hash; rewrite C, D; done|]. unfold get_code_by_address. unfold bytes in D |- *. rewrite D. done.
  Qed.

  (* ---------------------------------------------------------------------- *)
  (** * Batch lookups *)

  (** Exact answer of the batch lookups, for every list of hashes: position by position the value saved
      for the hash in that block, except that a hash asked for again gets nothing. *)
  Theorem C34_exact : forall h n hs, wf_hist h -> (n < 2 ^ 64)%N -> Forall (fun x => length x = 32) hs ->
    (exists r, get_transactions I (srun I h) n hs = Ok r /\ length r = length hs /\
       forall i x, hs !! i = Some x -> r !! i = Some (if decide (x ∈ take i hs) then None else tx_in h n x)) /\
    (exists r, get_receipts I (srun I h) n hs = Ok r /\ length r = length hs /\
       forall i x, hs !! i = Some x -> r !! i = Some (if decide (x ∈ take i hs) then None else rcpt_in h n x)).
  Proof using.
    intros h n hs W Hn L. pose proof (srun_refines h W) as R. split.
    - destruct (batch_get_spec _ n hs Hn (rf_tx_keys _ _ R) L) as (r & E & LR & S). exists r. split; [done|]. split; [done|].
      intros i x IX. rewrite (S i x IX). by rewrite (rf_tx _ _ R n x Hn).
    - unfold get_receipts. destruct hs as [|y hs]; [exists []; done|].
      destruct (batch_get_spec _ n (y :: hs) Hn (rf_rcpt_keys _ _ R) L) as (r & E & LR & S). exists r. split; [done|]. split; [done|].
      intros i x IX. rewrite (S i x IX). by rewrite (rf_rcpt _ _ R n x Hn).
  Qed.
  (** For lists without repetitions the answers are the saved values, in order. *)
  Theorem C34_positional : forall h n hs, wf_hist h -> (n < 2 ^ 64)%N -> Forall (fun x => length x = 32) hs -> NoDup hs ->
    get_transactions I (srun I h) n hs = Ok (map (tx_in h n) hs) /\ get_receipts I (srun I h) n hs = Ok (map (rcpt_in h n) hs).
  Proof using.
    intros h n hs W Hn L ND.
    assert (G : forall V (f : bytes -> option V) r, length r = length hs ->
              (forall i x, hs !! i = Some x -> r !! i = Some (if decide (x ∈ take i hs) then None else f x)) -> r = map f hs).
    { unfold bytes in *. intros V f r LR S. apply list_eq. intros i. destruct (hs !! i) as [x|] eqn:E.
      - rewrite (S i x E). change (map f hs) with (f <$> hs). rewrite list_lookup_fmap, E. cbn. rewrite decide_False; [done|].
        intros IN. apply elem_of_take in IN as (j & J & LT). pose proof (NoDup_lookup _ _ _ _ ND E J). lia.
      - change (map f hs) with (f <$> hs). rewrite list_lookup_fmap, E. cbn. apply lookup_ge_None. apply lookup_ge_None in E. lia. }
    destruct (C34_exact h n hs W Hn L) as [(r1 & E1 & L1 & S1) (r2 & E2 & L2 & S2)].
    split; [rewrite E1; f_equal; by apply G|rewrite E2; f_equal; by apply G].
  Qed.
End Props.

(* ------------------------------------------------------------------------ *)
(** * Where the general claims fail *)

(** A small instance: a block is its number and a salt, a transaction a number. *)
Definition ex_hash (a b : N) : bytes := be_fixed 16 a ++ be_fixed 16 b.
Definition ex_iface : iface := {|
  blk := N * N; hdr := N * N; tx := N; receipt := N; proof := N;
  b_header := fun b => b; h_number := fst; b_hash := fun b => ex_hash (fst b) (snd b);
  t_hash := fun t => ex_hash 1000 t; r_hash := fun t => ex_hash 1000 t |}.
Notation X := ex_iface.

(** Looking up a block by the hash of a transaction finds the block that holds the transaction:
    block and transaction hashes share a column. *)
Theorem C32_tx_hash_names_a_block_refuted : exists h, Forall (wf_event X) h /\ single_valued X h /\
  (forall e b, e ∈ h -> (e = ESave X b \/ e = ESet X b) -> b_hash X b <> ex_hash 1000 7) /\
  (get_block_by_hash X (srun X h) (ex_hash 1000 7)).2 = Ok (Some (5, 1)%N).
Proof.
  exists [ESave X ((5, 1)%N : blk X); ETxs X 5 [7%N : tx X]]. split; [|split; [|split]].
  - repeat constructor.
  - exists (fun _ => (5, 1)%N), (fun _ => 5%N), (fun _ => 7%N), (fun _ => 0%N), (fun x => x).
    repeat constructor; cbn; try done. all: apply elem_of_list_singleton in H; by subst.
  - intros e b IN K. rewrite !elem_of_cons, elem_of_nil in IN. destruct IN as [->|[->|[]]]; destruct K as [K|K]; try done.
    injection K as <-. vm_compute. done.
  - vm_compute. reflexivity.
Qed.

(** Saving another block at a height already read leaves the old one in the cache. *)
Theorem C33_overwrite_refuted : exists h, Forall (wf_event X) h /\
  (get_block X (srun X h) 5).2 = Ok (Some (5, 1)%N) /\ (get_block X (restart X (srun X h)) 5).2 = Ok (Some (5, 2)%N).
Proof.
  exists [ESave X ((5, 2)%N : blk X); EGetBlock X 5; ESave X ((5, 1)%N : blk X)].
  split; [repeat constructor|]. split; vm_compute; reflexivity.
Qed.
(** A removed block stays readable through the cache, and its header and number even without. *)
Theorem C33_remove_refuted : exists h, Forall (wf_event X) h /\
  (get_block X (srun X h) 5).2 = Ok (Some (5, 1)%N) /\ (get_block X (restart X (srun X h)) 5).2 = Ok None /\
  (get_block_header X (restart X (srun X h)) 5).2 = Ok (Some (5, 1)%N) /\
  (get_number X (restart X (srun X h)) (ex_hash 5 1)).2 = Some 5%N.
Proof.
  exists [ERemove X 5; EGetBlock X 5; ESave X ((5, 1)%N : blk X)].
  split; [repeat constructor|]. do 3 (split; [vm_compute; reflexivity|]). vm_compute; reflexivity.
Qed.
(** A transaction committed again at another height: the receipt and transaction answers move. *)
Theorem C33_recommit_refuted : exists h, Forall (wf_event X) h /\
  (get_tx X (restart X (srun X h)) (ex_hash 1000 7)).2 = None /\ (get_receipt X (restart X (srun X h)) (ex_hash 1000 7)).2 = Some 7%N /\
  (exists l, ETxs X 5 l ∈ h /\ (7%N : tx X) ∈ l).
Proof.
  exists [ERcpts X 6 [7%N : receipt X]; ETxs X 5 [7%N : tx X]].
  split; [repeat constructor|]. split; [vm_compute; reflexivity|]. split; [vm_compute; reflexivity|].
  exists [7%N : tx X]. split; [|by apply elem_of_list_singleton]. apply elem_of_cons. right. by apply elem_of_list_singleton.
Qed.
(** A hash asked for twice is answered once. *)
Theorem C34_repeated_refuted : exists h hs, Forall (wf_event X) h /\ Forall (fun x => length x = 32) hs /\
  get_transactions X (srun X h) 5 hs = Ok [Some 7%N; None].
Proof.
  exists [ETxs X 5 [7%N : tx X]], [ex_hash 1000 7; ex_hash 1000 7].
  split; [repeat constructor|]. split; [repeat constructor|]. vm_compute. reflexivity.
Qed.

(** A history with saves at two heights, cached reads, evictions and a restart meets the hypotheses. *)
Definition ex_hist : list (sevent X) :=
  [EGetByHash X (ex_hash 6 2); EEvict X (KTx (ex_hash 1000 8)); ESave X ((6, 2)%N : blk X); ECode X (ex_hash 1 1) (ex_hash 2 2) [1%N];
   ERcpts X 6 [9%N : receipt X]; ETxs X 6 [9%N : tx X]; EGetTx X (ex_hash 1000 8); ERestart X; EGetHeader X 5;
   EProof X (4%N : proof X); ESave X ((5, 1)%N : blk X); ETxs X 5 [8%N : tx X; 7%N : tx X]].
Example C32_ex : Forall (wf_event X) ex_hist /\ single_valued X ex_hist /\ stable X ex_hist /\
  (get_tx X (srun X ex_hist) (ex_hash 1000 9)).2 = Some 9%N /\
  get_latest_block X (srun X ex_hist) = Ok (6, 2)%N /\ get_latest_proof X (srun X ex_hist) = Ok 4%N.
Proof.
  assert (SV : Forall (agrees X (fun n => if (n =? 5)%N then (5, 1)%N else (6, 2)%N)
      (fun x => if decide (x = ex_hash 5 1 \/ x = ex_hash 1000 8 \/ x = ex_hash 1000 7) then 5%N else 6%N)
      (fun x => if decide (x = ex_hash 1000 8) then 8%N else if decide (x = ex_hash 1000 7) then 7%N else 9%N) (fun _ => 9%N)
      (fun x => if decide (x = ex_hash 1 1) then ex_hash 2 2 else [1%N])) ex_hist).
  { repeat (apply Forall_cons; split); [..|apply Forall_nil; done]; split; try done.
    all: try (intros t T; rewrite !elem_of_cons, elem_of_nil in T; destruct T as [->|[->|[]]] || destruct T as [->|[]]).
    all: vm_compute; done. }
  split; [repeat constructor|]. split; [by do 5 eexists|]. split; [by eapply sv_stable|].
  split; [vm_compute; reflexivity|]. split; vm_compute; reflexivity.
Qed.
Example C34_ex : get_transactions X (srun X ex_hist) 5 [ex_hash 1000 7; ex_hash 1000 9; ex_hash 1000 8] = Ok [Some 7%N; None; Some 8%N].
Proof. vm_compute. reflexivity. Qed.

Print Assumptions C32_cold_reads.
Print Assumptions C32_latest.
Print Assumptions C32_block_roundtrip.
Print Assumptions C32_tx_roundtrip.
Print Assumptions C32_receipt_roundtrip.
Print Assumptions C32_code_roundtrip.
Print Assumptions C32_unknown.
Print Assumptions C32_tx_hash_names_a_block_refuted.
Print Assumptions C33_warm_is_cold.
Print Assumptions C33_overwrite_refuted.
Print Assumptions C33_remove_refuted.
Print Assumptions C33_recommit_refuted.
Print Assumptions C34_exact.
Print Assumptions C34_positional.
Print Assumptions C34_repeated_refuted.
