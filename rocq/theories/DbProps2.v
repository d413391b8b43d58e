(** C100, second part: the storage over bytes gives the answers of StorageModel, so what is proved about that storage holds of the bytes on disk. *)
From Verif Require Import Bytes BytesProofs Rlp RlpProofs TxModel TxProofs TxProps StorageModel StorageProofs BlockModel BlockProofs TrieCodec Keccak Web3Model DbModel DbProps.
From Verif Require MetaModel MetaProofs.
From stdpp Require Import base gmap list sorting.
From Coq Require Import Lia.
Local Open Scope N_scope.

Lemma column_write d c l : proper d → ∃ d', rocks_write true d c l = (d', Ok ()) ∧ proper d' ∧ column d' c = apply_all (column d c) l ∧
  ∀ c', c' ≠ c → column d' c' = column d c'.
Proof.
  intros P. destruct (write_spec true d c l P) as (d' & E & P' & L). exists d'. split; [done|]. split; [done|]. split.
  - apply map_eq. intros k. rewrite L, apply_all_lookup. cbn [andb]. by rewrite bool_decide_eq_true_2.
  - intros c' N. apply map_eq. intros k. rewrite L. cbn [andb]. by rewrite bool_decide_eq_false_2.
Qed.
Lemma column_get (Sc : schema) d k : proper d → rocks_get Sc true d k =
  match column d (s_cat Sc) !! enc_key Sc k with
  | None => Ok None
  | Some b => match dec_val Sc b with Ok v => Ok (Some v) | Err => Err | Panic => Panic end
  end.
Proof. intros [P _]. unfold rocks_get, column. destruct (P (s_cat Sc)) as [m ->]. done. Qed.
Lemma column_iter (Sc : schema) d p : proper d → rocks_iter Sc d p = Ok (map (decode_entry Sc) (iter_from (column d (s_cat Sc)) p)).
Proof. intros [P _]. unfold rocks_iter, column. destruct (P (s_cat Sc)) as [m ->]. done. Qed.

Section Iter.
  Context {V : Type} (enc : V → bytes).
  (** Encoding the values does not change the order of the entries. *)
  Lemma sorted_unique (l1 : list (bytes * bytes)) : ∀ l2, StronglySorted key_le l1 → StronglySorted key_le l2 → NoDup (map fst l1) → l1 ≡ₚ l2 → l1 = l2.
  Proof.
    induction l1 as [|[k v] l1 IH]; intros l2 S1 S2 ND P.
    - by apply Permutation_nil_l in P.
    - destruct l2 as [|[k2 v2] l2]; [by apply Permutation_nil_r in P|].
      apply StronglySorted_inv in S1 as [S1 F1]. apply StronglySorted_inv in S2 as [S2 F2].
      assert (H : (k, v) = (k2, v2)).
      { assert (A : (k2, v2) ∈ (k, v) :: l1) by (rewrite P; apply elem_of_list_here).
        assert (B : (k, v) ∈ (k2, v2) :: l2) by (rewrite <- P; apply elem_of_list_here).
        apply elem_of_cons in A as [A|A]; [done|]. apply elem_of_cons in B as [B|B]; [done|].
        rewrite List.Forall_forall in F1, F2. apply elem_of_list_In in A, B. specialize (F1 _ A). specialize (F2 _ B).
        unfold key_le in F1, F2. cbn [fst] in F1, F2.
        assert (k = k2) as ->.
        { destruct (MetaModel.bytes_cmp k k2) eqn:C; [by apply MetaProofs.bytes_cmp_eq in C| |done].
          destruct (MetaModel.bytes_cmp k2 k) eqn:D; [by apply MetaProofs.bytes_cmp_eq in D| |done].
          pose proof (MetaProofs.bytes_cmp_trans _ _ _ C D) as X. rewrite (proj2 (MetaProofs.bytes_cmp_eq k k) eq_refl) in X. done. }
        exfalso. cbn [map fst] in ND. apply NoDup_cons in ND as [N _]. apply N. apply elem_of_list_fmap. exists (k2, v2). split; [done|].
        by apply elem_of_list_In. }
      injection H as -> ->. f_equal. apply IH; [done|done|cbn [map] in ND; by apply NoDup_cons in ND as [_ ND]|]. by apply Permutation_cons_inv in P.
  Qed.
  Lemma sorted_fmap (l : list (bytes * V)) : StronglySorted key_le l → StronglySorted key_le (map (prod_map id enc) l).
  Proof.
    induction 1 as [|[k v] l ST IH F]; [constructor|]. cbn [map]. constructor; [exact IH|].
    rewrite List.Forall_forall in *. intros y Y. apply in_map_iff in Y as ([k' v'] & <- & Y). exact (F _ Y).
  Qed.
  Lemma iter_fmap (m : gmap bytes V) p : iter_from (enc <$> m) p = map (prod_map id enc) (iter_from m p).
  Proof.
    apply sorted_unique; [apply iter_from_sorted|apply sorted_fmap, iter_from_sorted|apply iter_from_nodup|].
    apply NoDup_Permutation.
    - eapply NoDup_fmap_1, iter_from_nodup.
    - apply (NoDup_fmap_1 fst). change (fst <$> map (prod_map id enc) (iter_from m p)) with (map fst (map (prod_map id enc) (iter_from m p))).
      rewrite map_map. rewrite (map_ext _ fst) by (by intros []). apply iter_from_nodup.
    - intros [k b]. rewrite iter_from_elem, lookup_fmap. rewrite elem_of_list_In, in_map_iff. split.
      + intros [E C]. destruct (m !! k) as [v|] eqn:M; [|done]. cbn in E. injection E as <-. exists (k, v). split; [done|].
        apply elem_of_list_In, iter_from_elem. done.
      + intros ([k' v] & E & I). injection E as <- <-. apply elem_of_list_In, iter_from_elem in I as [M C]. rewrite M. done.
  Qed.
  (** The loops agree. *)
  Lemma scan_fmap c n hashes (l : list (bytes * V)) : ∀ count found,
    bscan n hashes count (map (decode_entry (BytesSchema c)) (map (prod_map id enc) l)) (map (prod_map id enc) found) =
    match scan n hashes count l found with Ok r => Ok (map (prod_map id enc) r) | Err => Err | Panic => Panic end.
  Proof.
    induction l as [|[k v] l IH]; intros [|count] found; cbn [map bscan scan]; try done.
    unfold decode_entry at 1. cbn [prod_map dec_key dec_val BytesSchema fst snd id].
    destruct (key_decode k) as [[n' x]| |]; [|done|done].
    destruct (negb (n' =? n)); [done|]. case_bool_decide; [|apply IH].
    rewrite <- IH. f_equal. rewrite map_app. done.
  Qed.
  Lemma decode_fmap (dec : bytes → outcome V) (l : list (bytes * V)) : (∀ k v, (k, v) ∈ l → dec (enc v) = Ok v) →
    decode_found dec (map (prod_map id enc) l) = Ok l.
  Proof.
    induction l as [|[k v] l IH]; intros H; [done|]. cbn [map decode_found prod_map id fst snd].
    rewrite (H k v) by apply elem_of_list_here. rewrite IH; [done|]. intros k' v' I. apply (H k'). by apply elem_of_list_further.
  Qed.
  (** What the loop finds are entries. *)
  Lemma scan_in n hashes (l : list (bytes * V)) : ∀ count found r, scan n hashes count l found = Ok r →
    ∀ x v, (x, v) ∈ r → (x, v) ∈ found ∨ ∃ k, (k, v) ∈ l.
  Proof.
    induction l as [|[k w] l IH]; intros [|count] found r; cbn [scan]; intros E x v I; try (injection E as <-; by left).
    destruct (key_decode k) as [[n' y]| |]; [|done|done]. destruct (negb (n' =? n)); [injection E as <-; by left|]. case_bool_decide.
    - destruct (IH _ _ _ E _ _ I) as [J|(k' & J)].
      + apply elem_of_app in J as [J|J]; [by left|]. apply elem_of_list_singleton in J. injection J as -> ->. right. exists k. apply elem_of_list_here.
      + right. exists k'. by apply elem_of_list_further.
    - destruct (IH _ _ _ E _ _ I) as [J|(k' & J)]; [by left|]. right. exists k'. by apply elem_of_list_further.
  Qed.
End Iter.

(* ================================================================ *)
Lemma num_ok n : n < 2 ^ 64 → dec_uint 8 (enc_uint n) = Some n.
Proof.
  intros H. apply codec_u64; [exact H|]. assert (L : len (be_min n) <= 8). { unfold len. rewrite be_min_length. pose proof (nbytes_le_8 n H). lia. }
  unfold enc_uint. pose proof (enc_str_max (be_min n)). lia.
Qed.

Section Refine.
  Context (keccak : bytes → bytes) (recover : bytes → bytes → option bytes) (shape : N → option xshape).
  Notation W := (Web3Model.W keccak).

  Definition enc_bval (v : bval W) : bytes := match v with VBlock _ b => enc_block b | VProof _ p => enc_proof p end.
  (** The bytes of a typed database. *)
  Record same (B : gmap bytes (gmap bytes bytes)) (d : sdb W) : Prop := Same {
    sm_proper : proper B;
    sm_block : column B CBlock = enc_bval <$> d_block W d;
    sm_header : column B CHeader = enc_hdr <$> d_header W d;
    sm_tx : column B CTx = enc_stx <$> d_tx W d;
    sm_rcpt : column B CReceipt = enc_receipt <$> d_rcpt W d;
    sm_num : column B CNum = enc_uint <$> d_num W d;
    sm_code : column B CCode = enc_str <$> d_code W d }.
  Definition rel (s : bstate keccak) (t : sstate W) : Prop :=
    same (b_db keccak s) (s_db W t) ∧ b_cache keccak s = s_cache W t ∧ b_latest keccak s = s_latest W t ∧ b_proof keccak s = s_proof W t.

  (** Values that survive their encoding. *)
  Record good (d : sdb W) : Prop := Good {
    gd_block : ∀ k b, d_block W d !! k = Some (VBlock W b) → dec_block (enc_block b) = Some b ∧ k ≠ rlp_key LATEST_PROOF_KEY;
    gd_proof : ∀ k p, d_block W d !! k = Some (VProof W p) → dec_proof (enc_proof p) = Some p ∧ k = rlp_key LATEST_PROOF_KEY;
    gd_header : ∀ k h, d_header W d !! k = Some h → dec_hdr (enc_hdr h) = Some h;
    gd_tx : ∀ k t, d_tx W d !! k = Some t → dec_stx keccak recover (enc_stx t) = Ok t;
    gd_rcpt : ∀ k r, d_rcpt W d !! k = Some r → dec_receipt shape (enc_receipt r) = Some r;
    gd_num : ∀ k n, d_num W d !! k = Some n → dec_uint 8 (enc_uint n) = Some n;
    gd_code : ∀ k c, d_code W d !! k = Some c → dec_value (enc_str c) = Some c }.

  (** What the callers store: values of the Rust types, of less than 2^64 bytes, and transactions that their own encoding gives back. *)
  Definition fits_block (b : BlockModel.block) : Prop := wf_block b ∧ len (enc_block b) < 2 ^ 64.
  Definition fits_code (c : bytes) : Prop := wf_bytes c ∧ len (enc_str c) < 2 ^ 64.
  Definition fits (e : sevent W) : Prop :=
    match e with
    | ESave _ b | ESet _ b | ELatest _ b => fits_block b
    | ETxs _ n l => n < 2 ^ 64 ∧ Forall (λ t, dec_stx keccak recover (enc_stx t) = Ok t) l
    | ERcpts _ n l => n < 2 ^ 64 ∧ Forall (λ r, wf_receipt shape r ∧ len (enc_receipt r) < 2 ^ 64) l
    | ECode _ a x c => fits_code c ∧ fits_code x
    | EProof _ p => wf_proof p ∧ len (enc_proof p) < 2 ^ 64
    | _ => True
    end.

  Lemma height_key_len n : length (height_key n) = 8%nat.
  Proof using Type. unfold height_key. apply be_fixed_length. Qed.
  Lemma height_not_proof n : height_key n ≠ rlp_key LATEST_PROOF_KEY.
  Proof using Type. intros E. apply (f_equal length) in E. rewrite height_key_len in E. vm_compute in E. discriminate E. Qed.
  Lemma latest_not_proof : rlp_key LATEST_BLOCK_KEY ≠ rlp_key LATEST_PROOF_KEY.
  Proof using Type. intros E. vm_compute in E. discriminate E. Qed.

  (* ---------------- reads ---------------- *)
  Lemma at_block B d n : same B d → good d → rocks_get BlockSchema true B n = read_block W d (height_key n).
  Proof using Type.
    intros S G. rewrite column_get by apply S. cbn [s_cat enc_key dec_val BlockSchema]. rewrite (sm_block _ _ S), lookup_fmap.
    unfold read_block. destruct (d_block W d !! height_key n) as [[b|p]|] eqn:E; cbn [fmap option_fmap option_map enc_bval]; [| |done].
    - destruct (gd_block _ G _ _ E) as [-> _]. done.
    - destruct (gd_proof _ G _ _ E) as [_ X]. by apply height_not_proof in X.
  Qed.
  Lemma at_latest B d : same B d → good d → rocks_get LatestBlockSchema true B LATEST_BLOCK_KEY = read_block W d (rlp_key LATEST_BLOCK_KEY).
  Proof using Type.
    intros S G. rewrite column_get by apply S. cbn [s_cat enc_key dec_val LatestBlockSchema]. rewrite (sm_block _ _ S), lookup_fmap.
    unfold read_block. destruct (d_block W d !! rlp_key LATEST_BLOCK_KEY) as [[b|p]|] eqn:E; cbn [fmap option_fmap option_map enc_bval]; [| |done].
    - destruct (gd_block _ G _ _ E) as [-> _]. done.
    - destruct (gd_proof _ G _ _ E) as [_ X]. by apply latest_not_proof in X.
  Qed.
  Lemma at_proof B d : same B d → good d → rocks_get LatestProofSchema true B LATEST_PROOF_KEY = read_proof W d (rlp_key LATEST_PROOF_KEY).
  Proof using Type.
    intros S G. rewrite column_get by apply S. cbn [s_cat enc_key dec_val LatestProofSchema]. rewrite (sm_block _ _ S), lookup_fmap.
    unfold read_proof. destruct (d_block W d !! rlp_key LATEST_PROOF_KEY) as [[b|p]|] eqn:E; cbn [fmap option_fmap option_map enc_bval]; [| |done].
    - by destruct (gd_block _ G _ _ E) as [_ X].
    - destruct (gd_proof _ G _ _ E) as [-> _]. done.
  Qed.
  Lemma get_as (Sc : schema) B k (o : option (s_val Sc)) : proper B → column B (s_cat Sc) !! enc_key Sc k = enc_val Sc <$> o →
    (∀ v, o = Some v → dec_val Sc (enc_val Sc v) = Ok v) → rocks_get Sc true B k = Ok o.
  Proof using Type. intros P E D. rewrite column_get by exact P. rewrite E. destruct o as [v|]; cbn [fmap option_fmap option_map]; [|done]. by rewrite (D v). Qed.
  Lemma at_header B d n : same B d → good d → rocks_get HeaderSchema true B n = Ok (d_header W d !! height_key n).
  Proof using Type.
    intros S G. apply get_as; [apply S| |].
    - cbn [s_cat enc_key HeaderSchema fst snd]. rewrite (sm_header _ _ S). apply lookup_fmap.
    - intros v E. cbn [dec_val enc_val HeaderSchema]. rewrite (gd_header _ G _ _ E). done.
  Qed.
  Lemma at_num B d x : same B d → good d → rocks_get NumSchema true B x = Ok (d_num W d !! rlp_key x).
  Proof using Type.
    intros S G. apply get_as; [apply S| |].
    - cbn [s_cat enc_key NumSchema fst snd]. rewrite (sm_num _ _ S). apply lookup_fmap.
    - intros v E. cbn [dec_val enc_val NumSchema]. rewrite (gd_num _ G _ _ E). done.
  Qed.
  Lemma at_code B d x : same B d → good d → rocks_get CodeSchema true B x = Ok (d_code W d !! rlp_key x).
  Proof using Type.
    intros S G. apply get_as; [apply S| |].
    - cbn [s_cat enc_key CodeSchema fst snd]. rewrite (sm_code _ _ S). apply lookup_fmap.
    - intros v E. cbn [dec_val enc_val CodeSchema]. rewrite (gd_code _ G _ _ E). done.
  Qed.
  Lemma at_code_at B d x : same B d → good d → rocks_get CodeAddressSchema true B x =
    match d_code W d !! rlp_key x with None => Ok None | Some v => if (length v =? 32)%nat then Ok (Some v) else Err end.
  Proof using Type.
    intros S G. rewrite column_get by apply S. cbn [s_cat enc_key dec_val CodeAddressSchema]. rewrite (sm_code _ _ S), lookup_fmap.
    destruct (d_code W d !! rlp_key x) as [h|] eqn:E; cbn [fmap option_fmap option_map]; [|done]. unfold dec_hash. rewrite (gd_code _ G _ _ E).
    by destruct (length h =? 32)%nat.
  Qed.
  Lemma at_tx B d n x : same B d → good d → rocks_get (TxSchema keccak recover) true B (n, x) = Ok (d_tx W d !! hash_key n x).
  Proof using Type.
    intros S G. apply get_as; [apply S| |].
    - cbn [s_cat enc_key TxSchema fst snd]. rewrite (sm_tx _ _ S). apply lookup_fmap.
    - intros v E. cbn [dec_val enc_val TxSchema]. exact (gd_tx _ G _ _ E).
  Qed.
  Lemma at_rcpt B d n x : same B d → good d → rocks_get (ReceiptSchema shape) true B (n, x) = Ok (d_rcpt W d !! hash_key n x).
  Proof using Type.
    intros S G. apply get_as; [apply S| |].
    - cbn [s_cat enc_key ReceiptSchema fst snd]. rewrite (sm_rcpt _ _ S). apply lookup_fmap.
    - intros v E. cbn [dec_val enc_val ReceiptSchema]. rewrite (gd_rcpt _ G _ _ E). done.
  Qed.

  Definition agree {A} (x : bstate keccak * outcome A) (y : sstate W * outcome A) (t : sstate W) : Prop :=
    x.2 = y.2 ∧ rel x.1 y.1 ∧ s_db W y.1 = s_db W t.
  Ltac open_rel := match goal with H : rel ?s ?t |- _ => destruct s as [B c la pr], t as [d c' la' pr']; destruct H as (S & Hc & Hl & Hp); cbn in S, Hc, Hl, Hp; subst c' la' pr' end.
  Ltac close := split; [reflexivity|]; split; [split; [assumption|]; split; [reflexivity|]; split; reflexivity|reflexivity].
  Lemma block_agree s t n : rel s t → good (s_db W t) → agree (bget_block keccak s n) (get_block W t n) t.
  Proof using Type.
    intros R G. open_rel. cbn in G. unfold bget_block, get_block, agree. cbn [b_cache s_cache b_db s_db].
    destruct (c_blocks W c !! n); [close|]. rewrite (at_block _ _ _ S G).
    destruct (read_block W d (height_key n)) as [[b|]| |]; close.
  Qed.
  Lemma header_agree s t n : rel s t → good (s_db W t) → agree (bget_header keccak s n) (get_block_header W t n) t.
  Proof using Type.
    intros R G. pose proof (block_agree s t n R G) as BA. revert BA. open_rel. cbn in G. unfold bget_header, get_block_header, agree. cbn [b_cache s_cache b_db s_db].
    intros BA. destruct (c_headers W c !! n); [close|]. rewrite (at_header _ _ _ S G). destruct (d_header W d !! height_key n); [close|].
    destruct (bget_block keccak _ n) as [s' r]. destruct (get_block W _ n) as [t' r']. destruct BA as (E & R' & D). cbn in E, R', D. subst r'.
    destruct r as [o| |]; (split; [reflexivity|split; [exact R'|exact D]]).
  Qed.
  Lemma number_agree s t x : rel s t → good (s_db W t) → agree (bget_number keccak s x) ((get_number W t x).1, Ok (get_number W t x).2) t.
  Proof using Type.
    intros R G. open_rel. cbn in G. unfold bget_number, get_number, agree. cbn [b_cache s_cache b_db s_db].
    destruct (c_nums W c !! x); [close|]. rewrite (at_num _ _ _ S G). destruct (d_num W d !! rlp_key x); close.
  Qed.
  Lemma by_hash_agree s t x : rel s t → good (s_db W t) → agree (bget_by_hash keccak s x) (get_block_by_hash W t x) t.
  Proof using Type.
    intros R G. pose proof (number_agree s t x R G) as NA. unfold bget_by_hash, get_block_by_hash.
    destruct (bget_number keccak s x) as [s' r]. destruct (get_number W t x) as [t' r']. destruct NA as (E & R' & D). cbn in E, R', D. subst r.
    destruct r' as [n|]; [|split; [reflexivity|split; [exact R'|exact D]]].
    destruct (block_agree s' t' n R') as (E2 & R2 & D2); [by rewrite D|]. split; [exact E2|]. split; [exact R2|]. by rewrite D2.
  Qed.
  Lemma code_agree s t x : rel s t → good (s_db W t) → agree (bget_code keccak s x) ((get_code_by_hash W t x).1, Ok (get_code_by_hash W t x).2) t.
  Proof using Type.
    intros R G. open_rel. cbn in G. unfold bget_code, get_code_by_hash, agree. cbn [b_cache s_cache b_db s_db].
    destruct (c_codes W c !! x); [close|]. rewrite (at_code _ _ _ S G). destruct (d_code W d !! rlp_key x); close.
  Qed.
  Lemma code_at_agree s t a : rel s t → good (s_db W t) → agree (bget_code_at keccak s a) (get_code_by_address W t a) t.
  Proof using Type.
    intros R G. unfold bget_code_at, get_code_by_address. rewrite (at_code_at _ (s_db W t) a (proj1 R) G).
    destruct (d_code W (s_db W t) !! rlp_key a) as [v|]; [|split; [reflexivity|split; [exact R|reflexivity]]].
    destruct (length v =? 32)%nat; [|split; [reflexivity|split; [exact R|reflexivity]]].
    pose proof (code_agree s t v R G) as CA. destruct (get_code_by_hash W t v) as [t' r]. exact CA.
  Qed.
  Lemma tx_agree s t x : rel s t → good (s_db W t) → agree (bget_tx keccak recover s x) ((get_tx W t x).1, Ok (get_tx W t x).2) t.
  Proof using Type.
    intros R G. open_rel. cbn in G. unfold bget_tx, get_tx, agree. cbn [b_cache s_cache b_db s_db].
    destruct (c_txs W c !! x); [close|]. rewrite (at_num _ _ _ S G). destruct (d_num W d !! rlp_key x) as [n|]; [|close].
    rewrite (at_tx _ _ _ _ S G). destruct (d_tx W d !! hash_key n x); close.
  Qed.
  Lemma rcpt_agree s t x : rel s t → good (s_db W t) → agree (bget_receipt keccak shape s x) ((get_receipt W t x).1, Ok (get_receipt W t x).2) t.
  Proof using Type.
    intros R G. open_rel. cbn in G. unfold bget_receipt, get_receipt, agree. cbn [b_cache s_cache b_db s_db].
    destruct (c_rcpts W c !! x); [close|]. rewrite (at_num _ _ _ S G). destruct (d_num W d !! rlp_key x) as [n|]; [|close].
    rewrite (at_rcpt _ _ _ _ S G). destruct (d_rcpt W d !! hash_key n x); close.
  Qed.
  Lemma batch_agree {V} (c : category) (enc : V → bytes) (dec : bytes → outcome V) (s : bstate keccak) (m : gmap bytes V) n hashes :
    proper (b_db keccak s) → column (b_db keccak s) c = enc <$> m → (∀ k v, m !! k = Some v → dec (enc v) = Ok v) →
    bbatch keccak c dec s n hashes = batch_get m n hashes.
  Proof using Type.
    intros P E D. unfold bbatch. rewrite column_iter by exact P. cbn [s_cat BytesSchema]. rewrite E, iter_fmap.
    pose proof (scan_fmap enc c n hashes (iter_from m (height_key n)) (length hashes) []) as X. cbn [map] in X. rewrite X. unfold batch_get.
    destruct (scan n hashes (length hashes) (iter_from m (height_key n)) []) as [r| |] eqn:F; [|done|done].
    rewrite decode_fmap; [done|]. intros k v I. destruct (scan_in _ _ _ _ _ _ F _ _ I) as [J|(k' & J)]; [by apply elem_of_nil in J|].
    apply iter_from_elem in J as [J _]. exact (D _ _ J).
  Qed.

  (* ---------------- writes ---------------- *)
  Lemma put_col B (Sc : schema) k v : proper B → ∃ B', rocks_step B (OInsert Sc k v, true) = (B', Ok ()) ∧ proper B' ∧
    column B' (s_cat Sc) = <[enc_key Sc k := enc_val Sc v]> (column B (s_cat Sc)) ∧ ∀ c, c ≠ s_cat Sc → column B' c = column B c.
  Proof using Type. intros P. apply (column_write _ (s_cat Sc) [(enc_key Sc k, Some (enc_val Sc v))] P). Qed.
  Lemma del_col B (Sc : schema) k : proper B → ∃ B', rocks_step B (ORemove Sc k, true) = (B', Ok ()) ∧ proper B' ∧
    column B' (s_cat Sc) = delete (enc_key Sc k) (column B (s_cat Sc)) ∧ ∀ c, c ≠ s_cat Sc → column B' c = column B c.
  Proof using Type. intros P. apply (column_write _ (s_cat Sc) [(enc_key Sc k, None)] P). Qed.
  Lemma many_col {A} B (Sc : schema) (fk : A → s_key Sc) (fv : A → s_val Sc) (l : list A) : proper B →
    ∃ B', rocks_step B (OBatch Sc (map fk l) (map (λ x, Some (fv x)) l), true) = (B', Ok ()) ∧ proper B' ∧
    column B' (s_cat Sc) = put_many (column B (s_cat Sc)) (map (λ x, (enc_key Sc (fk x), enc_val Sc (fv x))) l) ∧ ∀ c, c ≠ s_cat Sc → column B' c = column B c.
  Proof using Type.
    intros P. unfold rocks_step, rocks_batch. cbn [fst snd]. rewrite !map_length, Nat.eqb_refl. cbn [negb].
    assert (E : pairs Sc (map fk l) (map (λ x, Some (fv x)) l) = map (λ x, (enc_key Sc (fk x), Some (enc_val Sc (fv x)))) l).
    { unfold pairs. induction l as [|x l IH]; [done|]. cbn [map zip_with option_map]. by rewrite IH. }
    rewrite E. destruct (column_write B (s_cat Sc) (map (λ x, (enc_key Sc (fk x), Some (enc_val Sc (fv x)))) l) P) as (B' & E' & P' & C & O).
    exists B'. split; [done|]. split; [done|]. split; [|done]. rewrite C. unfold apply_all, put_many. generalize (column B (s_cat Sc)). clear.
    induction l as [|x l IH]; intros m; [done|]. cbn [map fold_left]. apply IH.
  Qed.
  Lemma calls2 B B1 B2 x y : rocks_step B (x, true) = (B1, Ok ()) → rocks_step B1 (y, true) = (B2, Ok ()) → calls B [x; y] [] = (B2, Ok ()).
  Proof using Type. intros E1 E2. cbn [calls tl]. rewrite E1. cbn [calls tl]. by rewrite E2. Qed.
  Lemma put_many_fmap {V} (enc : V → bytes) (m : gmap bytes V) l : put_many (enc <$> m) (map (prod_map id enc) l) = enc <$> put_many m l.
  Proof using Type.
    unfold put_many. revert m. induction l as [|[k v] l IH]; intros m; [done|]. cbn [map fold_left prod_map id fst snd]. by rewrite <- fmap_insert, IH.
  Qed.
  Lemma put_many_elem {V} (m : gmap bytes V) l k v : put_many m l !! k = Some v → m !! k = Some v ∨ (k, v) ∈ l.
  Proof using Type.
    unfold put_many. revert m. induction l as [|[k' v'] l IH]; intros m; cbn [fold_left fst snd]; [by left|].
    intros H. apply IH in H as [H|H]; [|right; by apply elem_of_list_further].
    destruct (decide (k' = k)) as [->|N]; [rewrite lookup_insert in H; injection H as ->; right; apply elem_of_list_here|].
    rewrite lookup_insert_ne in H by done. by left.
  Qed.

  Lemma hdr_len b : len (enc_hdr (b_header b)) <= len (enc_block b).
  Proof using Type.
    unfold enc_block. etransitivity; [|apply enc_list_len]. apply concat_len_in. by left.
  Qed.
  Lemma fits_ok b : fits_block b → dec_block (enc_block b) = Some b ∧ dec_hdr (enc_hdr (b_header b)) = Some (b_header b) ∧
    dec_uint 8 (enc_uint (h_number (b_header b))) = Some (h_number (b_header b)).
  Proof using Type.
    intros [Wf L]. split; [by apply codec_block|]. pose proof Wf as [Wh _]. split.
    - apply codec_header; [done|]. eapply N.le_lt_trans; [apply hdr_len|exact L].
    - apply num_ok. by destruct Wh as (_ & _ & _ & _ & _ & _ & _ & _ & H & _).
  Qed.

  (* the columns one call leaves as they were *)
  Ltac others O := first [rewrite O by discriminate|idtac].
  Lemma db_put_block B d b : same B d → good d → fits_block b → ∃ B', calls B (set_block_calls keccak b) [] = (B', Ok ()) ∧
    let n := h_number (b_header b) in let d' := SDb W (<[height_key n := VBlock W b]> (d_block W d)) (<[height_key n := b_header b]> (d_header W d))
                  (d_tx W d) (d_rcpt W d) (<[rlp_key (Web3Model.hash_of keccak b) := n]> (d_num W d)) (d_code W d) in
    same B' d' ∧ good d'.
  Proof using Type.
    intros S G F. destruct (fits_ok b F) as (D1 & D2 & D3).
    destruct (put_col B BlockSchema (h_number (b_header b)) b) as (B1 & E1 & P1 & C1 & O1); [apply S|].
    destruct (put_col B1 HeaderSchema (h_number (b_header b)) (b_header b) P1) as (B2 & E2 & P2 & C2 & O2).
    destruct (put_col B2 NumSchema (Web3Model.hash_of keccak b) (h_number (b_header b)) P2) as (B3 & E3 & P3 & C3 & O3).
    cbn [s_cat BlockSchema HeaderSchema NumSchema enc_key enc_val] in *.
    exists B3. split; [unfold set_block_calls; cbn [calls tl]; rewrite E1; cbn [calls tl]; rewrite E2; cbn [calls tl]; by rewrite E3|]. cbn zeta. split; split; cbn [d_block d_header d_tx d_rcpt d_num d_code].
    - exact P3.
    - rewrite O3, O2, C1, (sm_block _ _ S), fmap_insert by discriminate. done.
    - rewrite O3, C2, O1, (sm_header _ _ S), fmap_insert by discriminate. done.
    - rewrite O3, O2, O1 by discriminate. apply S.
    - rewrite O3, O2, O1 by discriminate. apply S.
    - rewrite C3, O2, O1, (sm_num _ _ S), fmap_insert by discriminate. done.
    - rewrite O3, O2, O1 by discriminate. apply S.
    - intros k b' H. apply lookup_insert_Some in H as [[<- H]|[_ H]]; [injection H as <-; split; [done|apply height_not_proof]|by apply (gd_block _ G)].
    - intros k p H. apply lookup_insert_Some in H as [[<- H]|[_ H]]; [discriminate H|by apply (gd_proof _ G)].
    - intros k h H. apply lookup_insert_Some in H as [[<- <-]|[_ H]]; [done|by apply (gd_header _ G k)].
    - apply G.
    - apply G.
    - intros k m H. apply lookup_insert_Some in H as [[<- <-]|[_ H]]; [done|by apply (gd_num _ G k)].
    - apply G.
  Qed.
  Lemma db_put_latest B d b : same B d → good d → fits_block b → ∃ B', calls B (latest_calls b) [] = (B', Ok ()) ∧
    let d' := SDb W (<[rlp_key LATEST_BLOCK_KEY := VBlock W b]> (d_block W d)) (d_header W d) (d_tx W d) (d_rcpt W d) (d_num W d) (d_code W d) in
    same B' d' ∧ good d'.
  Proof using Type.
    intros S G F. destruct (fits_ok b F) as (D1 & _ & _).
    destruct (put_col B LatestBlockSchema LATEST_BLOCK_KEY b) as (B1 & E1 & P1 & C1 & O1); [apply S|]. cbn [s_cat LatestBlockSchema enc_key enc_val] in *.
    exists B1. split; [unfold latest_calls; cbn [calls tl]; by rewrite E1|]. cbn zeta. split; split; cbn [d_block d_header d_tx d_rcpt d_num d_code].
    - exact P1.
    - rewrite C1, (sm_block _ _ S), fmap_insert. done.
    - rewrite O1 by discriminate. apply S.
    - rewrite O1 by discriminate. apply S.
    - rewrite O1 by discriminate. apply S.
    - rewrite O1 by discriminate. apply S.
    - rewrite O1 by discriminate. apply S.
    - intros k b' H. apply lookup_insert_Some in H as [[<- H]|[_ H]]; [injection H as <-; split; [done|apply latest_not_proof]|by apply (gd_block _ G)].
    - intros k p H. apply lookup_insert_Some in H as [[<- H]|[_ H]]; [discriminate H|by apply (gd_proof _ G)].
    - apply G.
    - apply G.
    - apply G.
    - apply G.
    - apply G.
  Qed.
  Lemma db_put_proof B d p : same B d → good d → wf_proof p → len (enc_proof p) < 2 ^ 64 → ∃ B', calls B [OInsert LatestProofSchema LATEST_PROOF_KEY p] [] = (B', Ok ()) ∧
    let d' := SDb W (<[rlp_key LATEST_PROOF_KEY := VProof W p]> (d_block W d)) (d_header W d) (d_tx W d) (d_rcpt W d) (d_num W d) (d_code W d) in
    same B' d' ∧ good d'.
  Proof using Type.
    intros S G F L. assert (D1 : dec_proof (enc_proof p) = Some p) by by apply codec_proof.
    destruct (put_col B LatestProofSchema LATEST_PROOF_KEY p) as (B1 & E1 & P1 & C1 & O1); [apply S|]. cbn [s_cat LatestProofSchema enc_key enc_val] in *.
    exists B1. split; [cbn [calls tl]; by rewrite E1|]. cbn zeta. split; split; cbn [d_block d_header d_tx d_rcpt d_num d_code].
    - exact P1.
    - rewrite C1, (sm_block _ _ S), fmap_insert. done.
    - rewrite O1 by discriminate. apply S.
    - rewrite O1 by discriminate. apply S.
    - rewrite O1 by discriminate. apply S.
    - rewrite O1 by discriminate. apply S.
    - rewrite O1 by discriminate. apply S.
    - intros k b' H. apply lookup_insert_Some in H as [[<- H]|[_ H]]; [discriminate H|by apply (gd_block _ G)].
    - intros k q H. apply lookup_insert_Some in H as [[<- H]|[_ H]]; [injection H as <-; done|by apply (gd_proof _ G)].
    - apply G.
    - apply G.
    - apply G.
    - apply G.
    - apply G.
  Qed.
  Lemma db_remove B d n : same B d → good d → ∃ B', calls B [ORemove BlockSchema n] [] = (B', Ok ()) ∧
    let d' := SDb W (delete (height_key n) (d_block W d)) (d_header W d) (d_tx W d) (d_rcpt W d) (d_num W d) (d_code W d) in
    same B' d' ∧ good d'.
  Proof using Type.
    intros S G.
    destruct (del_col B BlockSchema n) as (B1 & E1 & P1 & C1 & O1); [apply S|]. cbn [s_cat BlockSchema enc_key enc_val] in *.
    exists B1. split; [cbn [calls tl]; by rewrite E1|]. cbn zeta. split; split; cbn [d_block d_header d_tx d_rcpt d_num d_code].
    - exact P1.
    - rewrite C1, (sm_block _ _ S), fmap_delete. done.
    - rewrite O1 by discriminate. apply S.
    - rewrite O1 by discriminate. apply S.
    - rewrite O1 by discriminate. apply S.
    - rewrite O1 by discriminate. apply S.
    - rewrite O1 by discriminate. apply S.
    - intros k b' H. apply lookup_delete_Some in H as [_ H]. by apply (gd_block _ G).
    - intros k q H. apply lookup_delete_Some in H as [_ H]. by apply (gd_proof _ G).
    - apply G.
    - apply G.
    - apply G.
    - apply G.
    - apply G.
  Qed.
  Lemma db_code B d a x c : same B d → good d → fits_code c → fits_code x → ∃ B', calls B (code_calls a x c) [] = (B', Ok ()) ∧
    let d' := SDb W (d_block W d) (d_header W d) (d_tx W d) (d_rcpt W d) (d_num W d) (<[rlp_key a := x]> (<[rlp_key x := c]> (d_code W d))) in
    same B' d' ∧ good d'.
  Proof using Type.
    intros S G [W1 L1] [W2 L2]. assert (D1 : dec_value (enc_str c) = Some c) by by apply codec_str. assert (D2 : dec_value (enc_str x) = Some x) by by apply codec_str.
    destruct (put_col B CodeSchema x c) as (B1 & E1 & P1 & C1 & O1); [apply S|].
    destruct (put_col B1 CodeAddressSchema a x P1) as (B2 & E2 & P2 & C2 & O2). cbn [s_cat CodeSchema CodeAddressSchema enc_key enc_val] in *.
    exists B2. split; [unfold code_calls; cbn [calls tl]; rewrite E1; cbn [calls tl]; by rewrite E2|]. cbn zeta. split; split; cbn [d_block d_header d_tx d_rcpt d_num d_code].
    - exact P2.
    - rewrite O2, O1 by discriminate. apply S.
    - rewrite O2, O1 by discriminate. apply S.
    - rewrite O2, O1 by discriminate. apply S.
    - rewrite O2, O1 by discriminate. apply S.
    - rewrite O2, O1 by discriminate. apply S.
    - rewrite C2, C1, (sm_code _ _ S), !fmap_insert. done.
    - apply G.
    - apply G.
    - apply G.
    - apply G.
    - apply G.
    - apply G.
    - intros k h H. apply lookup_insert_Some in H as [[<- <-]|[_ H]]; [done|].
      apply lookup_insert_Some in H as [[<- <-]|[_ H]]; [done|by apply (gd_code _ G k)].
  Qed.
  Lemma db_txs B d n l : same B d → good d → n < 2 ^ 64 → Forall (λ t, dec_stx keccak recover (enc_stx t) = Ok t) l →
    ∃ B', calls B (txs_calls keccak recover n l) [] = (B', Ok ()) ∧
    let d' := SDb W (d_block W d) (d_header W d) (put_many (d_tx W d) (map (λ t, (hash_key n (u_hash (s_tx t)), t)) l)) (d_rcpt W d)
                  (put_many (d_num W d) (map (λ t, (rlp_key (u_hash (s_tx t)), n)) l)) (d_code W d) in
    same B' d' ∧ good d'.
  Proof using Type.
    intros S G Hn F.
    destruct (many_col B (TxSchema keccak recover) (λ t, (n, u_hash (s_tx t))) (λ t, t) l) as (B1 & E1 & P1 & C1 & O1); [apply S|].
    destruct (many_col B1 NumSchema (λ t, u_hash (s_tx t)) (λ _, n) l P1) as (B2 & E2 & P2 & C2 & O2).
    cbn [s_cat TxSchema NumSchema enc_key enc_val fst snd] in *.
    exists B2. split; [exact (calls2 _ _ _ _ _ E1 E2)|]. cbn zeta. split; split; cbn [d_block d_header d_tx d_rcpt d_num d_code].
    - exact P2.
    - rewrite O2, O1 by discriminate. apply S.
    - rewrite O2, O1 by discriminate. apply S.
    - rewrite O2, C1, (sm_tx _ _ S) by discriminate. rewrite <- put_many_fmap, map_map. done.
    - rewrite O2, O1 by discriminate. apply S.
    - rewrite C2, O1, (sm_num _ _ S) by discriminate. rewrite <- put_many_fmap, map_map. done.
    - rewrite O2, O1 by discriminate. apply S.
    - apply G.
    - apply G.
    - apply G.
    - intros k t H. apply put_many_elem in H as [H|H]; [by apply (gd_tx _ G k)|]. apply elem_of_list_In, in_map_iff in H as (t' & E & I). injection E as _ <-.
      rewrite Forall_forall in F. apply F. by apply elem_of_list_In.
    - apply G.
    - intros k m H. apply put_many_elem in H as [H|H]; [by apply (gd_num _ G k)|]. apply elem_of_list_In, in_map_iff in H as (t' & E & _). injection E as _ <-. by apply num_ok.
    - apply G.
  Qed.
  Lemma db_rcpts B d n l : same B d → good d → n < 2 ^ 64 → Forall (λ r, wf_receipt shape r ∧ len (enc_receipt r) < 2 ^ 64) l →
    ∃ B', calls B (rcpts_calls shape n l) [] = (B', Ok ()) ∧
    let d' := SDb W (d_block W d) (d_header W d) (d_tx W d) (put_many (d_rcpt W d) (map (λ t, (hash_key n (r_tx_hash t), t)) l))
                  (put_many (d_num W d) (map (λ t, (rlp_key (r_tx_hash t), n)) l)) (d_code W d) in
    same B' d' ∧ good d'.
  Proof using Type.
    intros S G Hn F.
    destruct (many_col B (ReceiptSchema shape) (λ t, (n, r_tx_hash t)) (λ t, t) l) as (B1 & E1 & P1 & C1 & O1); [apply S|].
    destruct (many_col B1 NumSchema r_tx_hash (λ _, n) l P1) as (B2 & E2 & P2 & C2 & O2).
    cbn [s_cat ReceiptSchema NumSchema enc_key enc_val fst snd] in *.
    exists B2. split; [exact (calls2 _ _ _ _ _ E1 E2)|]. cbn zeta. split; split; cbn [d_block d_header d_tx d_rcpt d_num d_code].
    - exact P2.
    - rewrite O2, O1 by discriminate. apply S.
    - rewrite O2, O1 by discriminate. apply S.
    - rewrite O2, O1 by discriminate. apply S.
    - rewrite O2, C1, (sm_rcpt _ _ S) by discriminate. rewrite <- put_many_fmap, map_map. done.
    - rewrite C2, O1, (sm_num _ _ S) by discriminate. rewrite <- put_many_fmap, map_map. done.
    - rewrite O2, O1 by discriminate. apply S.
    - apply G.
    - apply G.
    - apply G.
    - apply G.
    - intros k t H. apply put_many_elem in H as [H|H]; [by apply (gd_rcpt _ G k)|]. apply elem_of_list_In, in_map_iff in H as (t' & E & I). injection E as _ <-.
      rewrite Forall_forall in F. apply elem_of_list_In in I. destruct (F _ I) as [Wr L]. by apply codec_receipt.
    - intros k m H. apply put_many_elem in H as [H|H]; [by apply (gd_num _ G k)|]. apply elem_of_list_In, in_map_iff in H as (t' & E & _). injection E as _ <-. by apply num_ok.
    - apply G.
  Qed.

  Lemma good_eq d d' : d = d' → good d' → good d.
  Proof using Type. by intros ->. Qed.
  (** One event. *)
  Lemma step_refines s t e : rel s t → good (s_db W t) → fits e →
    rel (bstep keccak recover shape s e []) (sstep W t e) ∧ good (s_db W (sstep W t e)).
  Proof using Type.
    intros R G F. destruct e; cbn [bstep sstep fits] in *.
    - destruct R as (S & Hc & Hl & Hp). destruct (db_put_block _ _ _ S G F) as (B1 & E1 & S1 & G1). destruct (db_put_latest _ _ _ S1 G1 F) as (B2 & E2 & S2 & G2).
      unfold binsert_block, bwrite. rewrite E1. cbn [fst snd]. unfold bset_latest, bwrite. cbn [drop bset_db b_db]. rewrite E2. cbn [fst snd bset_db b_db b_cache b_latest b_proof].
      split; [|exact G2]. split; [exact S2|]. split; [exact Hc|]. split; [reflexivity|exact Hp].
    - destruct R as (S & Hc & Hl & Hp). destruct (db_put_block _ _ _ S G F) as (B1 & E1 & S1 & G1). unfold bwrite. rewrite E1. cbn [fst].
      split; [|exact G1]. split; [exact S1|]. split; [exact Hc|]. split; [exact Hl|exact Hp].
    - destruct R as (S & Hc & Hl & Hp). destruct (db_put_latest _ _ _ S G F) as (B1 & E1 & S1 & G1). unfold bset_latest, bwrite. rewrite E1. cbn [fst].
      split; [|exact G1]. split; [exact S1|]. split; [exact Hc|]. split; [reflexivity|exact Hp].
    - destruct R as (S & Hc & Hl & Hp). destruct (db_remove _ _ n S G) as (B1 & E1 & S1 & G1). unfold bwrite. rewrite E1. cbn [fst].
      split; [|exact G1]. split; [exact S1|]. split; [exact Hc|]. split; [exact Hl|exact Hp].
    - destruct R as (S & Hc & Hl & Hp). destruct F as [F1 F2]. destruct (db_txs _ _ n l S G F1 F2) as (B1 & E1 & S1 & G1). unfold bwrite. rewrite E1. cbn [fst].
      split; [|exact G1]. split; [exact S1|]. split; [exact Hc|]. split; [exact Hl|exact Hp].
    - destruct R as (S & Hc & Hl & Hp). destruct F as [F1 F2]. destruct (db_rcpts _ _ n l S G F1 F2) as (B1 & E1 & S1 & G1). unfold bwrite. rewrite E1. cbn [fst].
      split; [|exact G1]. split; [exact S1|]. split; [exact Hc|]. split; [exact Hl|exact Hp].
    - destruct R as (S & Hc & Hl & Hp). destruct F as [F1 F2]. destruct (db_code _ _ a x code S G F1 F2) as (B1 & E1 & S1 & G1). unfold bwrite. rewrite E1. cbn [fst].
      split; [|exact G1]. split; [exact S1|]. split; [exact Hc|]. split; [exact Hl|exact Hp].
    - destruct R as (S & Hc & Hl & Hp). destruct F as [F1 F2]. destruct (db_put_proof _ _ _ S G F1 F2) as (B1 & E1 & S1 & G1). unfold bset_proof, bwrite. rewrite E1. cbn [fst].
      split; [|exact G1]. split; [exact S1|]. split; [exact Hc|]. split; [exact Hl|reflexivity].
    - destruct (block_agree s t n R G) as (_ & R' & D). split; [exact R'|exact (good_eq _ _ D G)].
    - destruct (header_agree s t n R G) as (_ & R' & D). split; [exact R'|exact (good_eq _ _ D G)].
    - destruct (number_agree s t x R G) as (_ & R' & D). split; [exact R'|exact (good_eq _ _ D G)].
    - destruct (by_hash_agree s t x R G) as (_ & R' & D). split; [exact R'|exact (good_eq _ _ D G)].
    - destruct (tx_agree s t x R G) as (_ & R' & D). split; [exact R'|exact (good_eq _ _ D G)].
    - destruct (rcpt_agree s t x R G) as (_ & R' & D). split; [exact R'|exact (good_eq _ _ D G)].
    - destruct (code_agree s t x R G) as (_ & R' & D). split; [exact R'|exact (good_eq _ _ D G)].
    - destruct (code_at_agree s t a R G) as (_ & R' & D). split; [exact R'|exact (good_eq _ _ D G)].
    - destruct R as (S & Hc & Hl & Hp). split; [|exact G]. split; [exact S|]. cbn. rewrite Hc. split; [reflexivity|]. split; [exact Hl|exact Hp].
    - destruct R as (S & Hc & Hl & Hp). rewrite (open_proper (b_db keccak s) true (sm_proper _ _ S)).
      split; [|exact G]. split; [exact S|done].
  Qed.

  Lemma start : rel (bstate0 keccak) (sstate0 W) ∧ good (s_db W (sstate0 W)).
  Proof using Type.
    unfold bstate0. destruct (rocks_open None true) as [d| |] eqn:E; [|by rewrite fresh_ok in E|by rewrite fresh_ok in E].
    destruct (C100_open _ _ _ E) as (P & _ & Em). split.
    - split; [|done]. cbn [b_db s_db sstate0]. split; [exact P|..]; rewrite Em; symmetry; apply fmap_empty.
    - split; cbn [s_db sstate0 d_block d_header d_tx d_rcpt d_num d_code]; intros k v H; rewrite lookup_empty in H; discriminate H.
  Qed.
  Lemma run_refines h : Forall fits h → rel (brun keccak recover shape h) (srun W h) ∧ good (s_db W (srun W h)).
  Proof using Type.
    induction 1 as [|e h F _ [R G]]; [exact start|]. cbn [brun srun]. by apply step_refines.
  Qed.
  (** After any history of writes, reads, evictions and restarts, every read of the storage over bytes gives what the typed storage gives. *)
  Theorem C100_refines h : Forall fits h → let s := brun keccak recover shape h in let t := srun W h in
    (∀ n, (bget_block keccak s n).2 = (get_block W t n).2) ∧
    (∀ n, (bget_header keccak s n).2 = (get_block_header W t n).2) ∧
    bget_latest_block keccak s = get_latest_block W t ∧ bget_latest_header keccak s = get_latest_block_header W t ∧
    bget_latest_proof keccak s = get_latest_proof W t ∧
    (∀ x, (bget_number keccak s x).2 = Ok (get_number W t x).2) ∧
    (∀ x, (bget_by_hash keccak s x).2 = (get_block_by_hash W t x).2) ∧
    (∀ x, (bget_tx keccak recover s x).2 = Ok (get_tx W t x).2) ∧
    (∀ x, (bget_receipt keccak shape s x).2 = Ok (get_receipt W t x).2) ∧
    (∀ x, (bget_code keccak s x).2 = Ok (get_code_by_hash W t x).2) ∧
    (∀ a, (bget_code_at keccak s a).2 = (get_code_by_address W t a).2) ∧
    (∀ n l, bget_transactions keccak recover s n l = get_transactions W t n l) ∧
    (∀ n l, bget_receipts keccak shape s n l = get_receipts W t n l).
  Proof using Type.
    intros F. cbn zeta. destruct (run_refines h F) as [R G]. set (s := brun keccak recover shape h) in *. set (t := srun W h) in *. clearbody s t.
    split; [intros n; exact (proj1 (block_agree s t n R G))|]. split; [intros n; exact (proj1 (header_agree s t n R G))|].
    split; [|split; [|split]].
    - destruct R as (S & _ & Hl & _). unfold bget_latest_block, get_latest_block. rewrite Hl, (at_latest _ _ S G). by destruct (s_latest W t).
    - destruct R as (S & _ & Hl & _). unfold bget_latest_header, get_latest_block_header. rewrite Hl, (at_latest _ _ S G). destruct (s_latest W t); [done|].
      by destruct (read_block W (s_db W t) (rlp_key LATEST_BLOCK_KEY)) as [[]| |].
    - destruct R as (S & _ & _ & Hp). unfold bget_latest_proof, get_latest_proof. rewrite Hp, (at_proof _ _ S G). by destruct (s_proof W t).
    - split; [intros n; exact (proj1 (number_agree s t n R G))|]. split; [intros n; exact (proj1 (by_hash_agree s t n R G))|].
      split; [intros n; exact (proj1 (tx_agree s t n R G))|]. split; [intros n; exact (proj1 (rcpt_agree s t n R G))|].
      split; [intros n; exact (proj1 (code_agree s t n R G))|]. split; [intros n; exact (proj1 (code_at_agree s t n R G))|].
      destruct R as (S & _). split; intros n l.
      + unfold bget_transactions, get_transactions. apply (batch_agree CTx enc_stx); [apply S|apply S|apply G].
      + unfold bget_receipts, get_receipts. destruct l; [done|]. apply (batch_agree CReceipt enc_receipt); [apply S|apply S|].
        intros k v H. unfold opt_out. by rewrite (gd_rcpt _ G _ _ H).
  Qed.
End Refine.
Print Assumptions C100_refines.
