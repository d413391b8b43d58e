(** Property theorems C01-C04: transaction codec. *)
From Verif Require Import Bytes BytesProofs Rlp RlpProofs TxModel TxSpec TxProofs TxProofs2 Keccak TxExamples.

(* ================= C01 ================= *)
(** Raw bytes of a well-formed signed transaction decode to that transaction, for every hash function. *)
Theorem C01_raw_roundtrip : forall keccak t,
  wf_signed_utx t -> len (enc_utx t) < 2^64 -> u_hash t = keccak (enc_utx t) ->
  dec_utx keccak (enc_utx t) = Ok t.
Proof. exact roundtrip_utx. Qed.
Print Assumptions C01_raw_roundtrip.

(** Whatever hash field the sender's structure carried, the decoded one is the digest of the bytes. *)
Theorem C01_raw_roundtrip_fields : forall keccak t,
  wf_signed_utx t -> len (enc_utx t) < 2^64 ->
  dec_utx keccak (enc_utx t) =
  Ok (Utx (u_unsigned t) (u_sig t) (u_chain t) (keccak (enc_utx t))).
Proof.
  intros keccak t W L. 
  exact (roundtrip_utx keccak (Utx (u_unsigned t) (u_sig t) (u_chain t) (keccak (enc_utx t))) W L eq_refl).
Qed.
Print Assumptions C01_raw_roundtrip_fields.

Lemma signed_roundtrip keccak recover t st :
  wf_signed_utx t -> wf_bytes (enc_utx t) -> len (enc_utx t) < 2^64 ->
  from_unverified keccak recover t = Ok st ->
  s_tx st = calc_hash keccak t /\ dec_stx keccak recover (enc_stx st) = Ok st.
Proof.
  intros W B L H. unfold from_unverified in H.
  destruct (u_sig t) as [s|] eqn:S; [|discriminate].
  destruct (sender_of keccak recover t s) as [[a p]| |] eqn:E; try discriminate.
  injection H as <-. split; [reflexivity|].
  unfold dec_stx, enc_stx. cbn [s_tx].
  change (enc_utx (calc_hash keccak t)) with (enc_utx t).
  rewrite <- (app_nil_r (enc_str _)), data_str by assumption.
  rewrite C01_raw_roundtrip_fields by assumption. cbn [u_sig]. rewrite S.
  change (sender_of keccak recover (Utx (u_unsigned t) (Some s) (u_chain t) (keccak (enc_utx t))) s)
    with (sender_of keccak recover t s).
  rewrite E. unfold calc_hash, get_hash. now rewrite S.
Qed.

(** All encoded bytes are bytes. *)
Lemma wf_enc_header b l : (b = 128 \/ b = 192) -> l < 2^64 -> wf_bytes (enc_header b l).
Proof.
  intros Hb Hl. unfold enc_header. destruct (l <? 56) eqn:E.
  - constructor; [unfold is_byte; lia|constructor].
  - constructor; [|apply be_min_wf]. pose proof (nbytes_le_8 _ Hl). unfold is_byte. lia.
Qed.
Lemma wf_enc_str b : wf_bytes b -> len b < 2^64 -> wf_bytes (enc_str b).
Proof.
  intros W L. destruct (enc_str_cases b) as [(x & -> & Hx & ->)|[-> _]]; [exact W|].
  apply Forall_app. split; [apply wf_enc_header; auto|exact W].
Qed.
Lemma wf_concat l : Forall wf_bytes l -> wf_bytes (concat l).
Proof. induction 1; cbn [concat]; [constructor|]. apply Forall_app. now split. Qed.
Lemma wf_enc_list l : Forall wf_bytes l -> len (concat l) < 2^64 -> wf_bytes (enc_list l).
Proof.
  intros W L. unfold enc_list. apply Forall_app. split; [apply wf_enc_header; auto|now apply wf_concat].
Qed.
Lemma wf_enc_uint n : n < 2^256 -> wf_bytes (enc_uint n).
Proof.
  intros H. apply wf_enc_str; [apply be_min_wf|]. apply (len_be_min n 32); [|lia].
  now apply u256_pow.
Qed.
Lemma wf_enc_action a : wf_action a -> wf_bytes (enc_action a).
Proof.
  destruct a as [t|]; cbn [wf_action enc_action]; intros H; apply wf_enc_str;
    try apply H; try rewrite (fixed_len 20 _ H); try rewrite len_nil; try constructor; lia.
Qed.
Lemma wf_enc_access_item a :
  wf_access_item a -> len (enc_access_item a) < 2^64 -> wf_bytes (enc_access_item a).
Proof.
  intros [Ha Hk] L. unfold enc_access_item in *.
  assert (LC := N.le_lt_trans _ _ _ (enc_list_len _) L).
  apply wf_enc_list; [|exact LC].
  constructor; [apply wf_enc_str; [apply Ha|rewrite (fixed_len 20 _ Ha); lia]|].
  constructor; [|constructor]. apply wf_enc_list.
  - apply Forall_map. eapply Forall_impl; [|exact Hk]. intros b Hb. apply wf_enc_str; [apply Hb|].
    rewrite (fixed_len 32 _ Hb). lia.
  - eapply N.le_lt_trans; [apply enc_list_len|]. eapply len_in; [|exact LC]. right; now left.
Qed.
Lemma wf_enc_access l :
  Forall wf_access_item l -> len (enc_access l) < 2^64 -> wf_bytes (enc_access l).
Proof.
  intros H L. unfold enc_access in *. assert (LC := N.le_lt_trans _ _ _ (enc_list_len _) L).
  apply wf_enc_list; [|exact LC]. rewrite Forall_forall in *.
  intros b Hb. apply in_map_iff in Hb as (a & <- & Ha). apply wf_enc_access_item; auto.
  eapply len_in; [apply in_map, Ha|exact LC].
Qed.
Lemma wf_enc_rs s items :
  wf_sig s -> incl (enc_rs s) items -> len (concat items) < 2^64 -> Forall wf_bytes (enc_rs s).
Proof.
  intros W I L. destruct (sig_lens s items) as [Lr Ls]; auto.
  1,2: apply I; rewrite enc_rs_items; in_tac.
  unfold enc_rs in *. pose proof W as (Wr & Ws & _).
  destruct (wf_sig_cases s W) as [(-> & Fr & Fs)|(-> & _)].
  - rewrite !truncate_32 by (apply Fr || apply Fs).
    repeat constructor; apply wf_enc_uint, be_val_256; assumption.
  - repeat constructor; now apply wf_enc_str.
Qed.

Lemma wf_enc_utx t : wf_signed_utx t -> len (enc_utx t) < 2^64 -> wf_bytes (enc_utx t).
Proof.
  destruct t as [u [s|] c h]; [|now intros [_ []]]. intros [Wu [Ws Wc]] L.
  unfold enc_utx in *. cbn [u_unsigned u_sig u_chain] in *.
  pose proof Ws as (_ & _ & V8 & _).
  assert (forall n, u64_ok n -> wf_bytes (enc_uint n)) as H64
    by (intros n Hn; apply wf_enc_uint; unfold u64_ok in Hn; lia).
  destruct u as [t|t|t]; cbn [enc_unsigned] in *.
  - assert (LC := N.le_lt_trans _ _ _ (enc_list_len _) L).
    destruct Wu as (Hn & Hp & Hg & Ha & Hv & Hd). destruct Wc as [V2 Hc].
    destruct (replay_ok (sg_v s) c V2 Hc) as (R64 & _).
    apply wf_enc_list; [|exact LC]. unfold legacy_items in *. apply Forall_app. split.
    + repeat (apply Forall_cons || apply Forall_nil); auto using wf_enc_action, wf_enc_uint.
      apply wf_enc_str; [exact Hd|]. eapply len_str_in; [|exact LC]. in_tac.
    + constructor; [apply H64; exact R64|]. eapply wf_enc_rs; [exact Ws| |exact LC].
      intros b Hb. cbn [app In]. tauto.
  - rewrite len_cons in L. constructor; [unfold is_byte; lia|].
    assert (LC : len (concat (eip2930_items t c (Some s))) < 2^64)
      by (eapply N.le_lt_trans; [apply enc_list_len|lia]).
    destruct Wu as (Hn & Hp & Hg & Ha & Hv & Hd & Hl). destruct c as [c|]; [|easy].
    apply wf_enc_list; [|exact LC]. unfold eip2930_items in *. apply Forall_app. split.
    + repeat (apply Forall_cons || apply Forall_nil); auto using wf_enc_action, wf_enc_uint.
      * apply wf_enc_str; [exact Hd|]. eapply len_str_in; [|exact LC]. in_tac.
      * apply wf_enc_access; [exact Hl|]. eapply len_in; [|exact LC]. in_tac.
    + constructor; [apply wf_enc_uint; lia|]. eapply wf_enc_rs; [exact Ws| |exact LC].
      intros b Hb. cbn [app In sig_items enc_sig]. tauto.
  - rewrite len_cons in L. constructor; [unfold is_byte; lia|].
    assert (LC : len (concat (eip1559_items t c (Some s))) < 2^64)
      by (eapply N.le_lt_trans; [apply enc_list_len|lia]).
    destruct Wu as (Hn & Hm & Hp & Hg & Ha & Hv & Hd & Hl). destruct c as [c|]; [|easy].
    apply wf_enc_list; [|exact LC]. unfold eip1559_items in *. apply Forall_app. split.
    + repeat (apply Forall_cons || apply Forall_nil); auto using wf_enc_action, wf_enc_uint.
      * apply wf_enc_str; [exact Hd|]. eapply len_str_in; [|exact LC]. in_tac.
      * apply wf_enc_access; [exact Hl|]. eapply len_in; [|exact LC]. in_tac.
    + constructor; [apply wf_enc_uint; lia|]. eapply wf_enc_rs; [exact Ws| |exact LC].
      intros b Hb. cbn [app In sig_items enc_sig]. tauto.
Qed.

(** A transaction accepted through [from_unverified] survives the signed
    (network / storage) encoding with hash, sender and public key intact. *)
Theorem C01_signed_roundtrip : forall keccak recover t st,
  wf_signed_utx t -> len (enc_utx t) < 2^64 -> from_unverified keccak recover t = Ok st ->
  s_tx st = calc_hash keccak t /\ dec_stx keccak recover (enc_stx st) = Ok st.
Proof. intros keccak recover t st W L. exact (signed_roundtrip keccak recover t st W (wf_enc_utx t W L) L). Qed.
Print Assumptions C01_signed_roundtrip.

(** Batches of signed transactions keep content and order. *)
Lemma map_outcome_ok {A B} (f : A -> outcome B) (g : B -> A) l :
  (forall x, In x l -> f (g x) = Ok x) -> map_outcome f (map g l) = Ok l.
Proof.
  induction l as [|x l IH]; cbn [map map_outcome]; intros H; [reflexivity|].
  rewrite H by now left. rewrite IH; [reflexivity|]. intros y Hy. apply H. now right.
Qed.
Theorem C01_batch_roundtrip : forall keccak recover sts,
  (forall st, In st sts -> exists t, wf_signed_utx t /\ len (enc_utx t) < 2^64 /\
                                     from_unverified keccak recover t = Ok st) ->
  len (enc_batch sts) < 2^64 ->
  dec_batch keccak recover (enc_batch sts) = Ok sts.
Proof.
  intros keccak recover sts H L. unfold dec_batch, enc_batch in *.
  assert (LC := N.le_lt_trans _ _ _ (enc_list_len _) L).
  rewrite view_items_list.
  - apply map_outcome_ok. intros st Hst. destruct (H st Hst) as (t & W & Lt & F).
    now apply (C01_signed_roundtrip keccak recover t).
  - apply Forall_map, Forall_forall. intros st Hst. destruct (H st Hst) as (t & W & Lt & F).
    destruct (C01_signed_roundtrip keccak recover t st W Lt F) as [E _].
    unfold enc_stx. rewrite E. change (enc_utx (calc_hash keccak t)) with (enc_utx t).
    apply is_item_str; [now apply wf_enc_utx|exact Lt].
  - exact LC.
Qed.
Print Assumptions C01_batch_roundtrip.

(* --- the hypotheses are met --- *)
Definition ex_sig : sigc := SigC (repeat 7 32) (0 :: repeat 9 31) 1.
Definition ex_2930 : utx :=
  Utx (Eip2930 (Eip2930Tx 300 (2^63) 21000 (Call (repeat 17 20)) (2^200) (repeat 255 70)
        [AccessItem (repeat 1 20) [repeat 2 32; repeat 3 32]; AccessItem (repeat 4 20) []]))
      (Some ex_sig) (Some 2022) [].
Definition ex_interop : utx :=
  Utx (Legacy (LegacyTx 0 1 2 Create 5 []))
      (Some (SigC (0 :: enc_list [enc_list [enc_hash (repeat 5 32); enc_uint 0; enc_uint 1]; enc_str [1; 2; 3]])
                  (repeat 6 40) 0)) (Some 5) [].
Ltac wf_tac :=
  repeat match goal with
         | |- wf_bytes _ => apply wf_bytesb_spec; vm_compute; reflexivity
         | |- fixed _ _ => split
         | |- wf_access_item _ => split
         | |- wf_sig _ => split
         | |- wf_signed_utx _ => split
         | |- wf_unsigned _ => cbn
         | |- wf_chain_v _ _ _ => cbn
         | |- _ /\ _ => split
         | |- True => exact I
         | |- Forall _ [] => constructor
         | |- Forall _ (_ :: _) => constructor
         | |- Forall _ _ => progress cbn
         | |- match _ with _ => _ end => cbn
         | |- _ < _ => vm_compute; reflexivity
         | |- _ = _ => reflexivity
         | |- u64_ok _ => vm_compute; reflexivity
         | |- u256_ok _ => vm_compute; reflexivity
         end.
Example ex_2930_wf : wf_signed_utx ex_2930 /\ len (enc_utx ex_2930) < 2^64.
Proof. split; [|vm_compute; reflexivity]. wf_tac. left; split; reflexivity. Qed.
Example ex_2930_roundtrip : dec_utx keccak256 (enc_utx (calc_hash keccak256 ex_2930)) = Ok (calc_hash keccak256 ex_2930).
Proof. vm_compute. reflexivity. Qed.
Example ex_interop_wf : wf_signed_utx ex_interop /\ len (enc_utx ex_interop) < 2^64.
Proof. split; [|vm_compute; reflexivity]. wf_tac. right. vm_compute. lia. Qed.
Example ex_interop_signed :
  match from_unverified keccak256 (fun _ _ => None) ex_interop with
  | Ok st => s_sender st = skipn 12 (keccak256 [1;2;3])
             /\ dec_stx keccak256 (fun _ _ => None) (enc_stx st) = Ok st
             /\ dec_batch keccak256 (fun _ _ => None) (enc_batch [st; st]) = Ok [st; st]
  | _ => False
  end.
Proof. vm_compute. repeat split. Qed.

(* ================= C02 ================= *)
(** Equal signing payloads of transactions for given chains: same kind, same content, same chain. *)
Theorem C02_signing_payload_binds : forall u1 c1 u2 c2,
  wf_unsigned u1 -> wf_unsigned u2 -> c1 < 2^64 -> c2 < 2^64 ->
  len (signing_payload u1 (Some c1)) < 2^64 -> len (signing_payload u2 (Some c2)) < 2^64 ->
  signing_payload u1 (Some c1) = signing_payload u2 (Some c2) -> u1 = u2 /\ c1 = c2.
Proof.
  intros u1 c1 u2 c2 W1 W2 C1 C2 L1 L2 E.
  destruct (signing_payload_inj u1 (Some c1) u2 (Some c2) W1 W2 C1 C2 L1 L2 E) as [-> H].
  split; [reflexivity|]. destruct u2; cbn in H; congruence.
Qed.
Print Assumptions C02_signing_payload_binds.

(** Also across transactions without a chain id: a legacy transaction signed
    without a chain id never shares its payload with one bound to a chain. *)
Theorem C02_unprotected_legacy_separate : forall u1 t c,
  wf_unsigned u1 -> wf_unsigned (Legacy t) -> c < 2^64 ->
  len (signing_payload u1 (Some c)) < 2^64 -> len (signing_payload (Legacy t) None) < 2^64 ->
  signing_payload u1 (Some c) <> signing_payload (Legacy t) None.
Proof.
  intros u1 t c W1 W2 C L1 L2 E.
  destruct (signing_payload_inj u1 (Some c) (Legacy t) None W1 W2 C I L1 L2 E) as [-> H].
  cbn in H. discriminate.
Qed.
Print Assumptions C02_unprotected_legacy_separate.

(** Hence equal signed digests mean the same transaction on the same chain, or an
    explicit collision of the hash function on the two payloads. *)
Theorem C02_signature_hash_binds : forall keccak t1 t2 c1 c2,
  wf_unsigned (u_unsigned t1) -> wf_unsigned (u_unsigned t2) ->
  u_chain t1 = Some c1 -> u_chain t2 = Some c2 -> c1 < 2^64 -> c2 < 2^64 ->
  len (signing_payload (u_unsigned t1) (Some c1)) < 2^64 ->
  len (signing_payload (u_unsigned t2) (Some c2)) < 2^64 ->
  signature_hash keccak t1 = signature_hash keccak t2 ->
  (u_unsigned t1 = u_unsigned t2 /\ c1 = c2) \/
  (exists a b, a <> b /\ keccak a = keccak b /\
     a = signing_payload (u_unsigned t1) (Some c1) /\ b = signing_payload (u_unsigned t2) (Some c2)).
Proof.
  intros keccak t1 t2 c1 c2 W1 W2 E1 E2 C1 C2 L1 L2 H. unfold signature_hash in H.
  rewrite E1, E2 in H.
  destruct (beqb (signing_payload (u_unsigned t1) (Some c1)) (signing_payload (u_unsigned t2) (Some c2))) eqn:B.
  - left. apply beqb_eq in B. now apply C02_signing_payload_binds.
  - right. eexists _, _. split; [|split; [exact H|split; reflexivity]].
    intros F. apply beqb_eq in F. congruence.
Qed.
Print Assumptions C02_signature_hash_binds.

(** Outside the quantifier of C02 (no chain id), recorded as a limit: a typed
    transaction without chain id is signed exactly like one for chain 0. *)
Example C02_typed_none_is_zero : forall t,
  signing_payload (Eip1559 t) None = signing_payload (Eip1559 t) (Some 0).
Proof. reflexivity. Qed.
Example C02_nontrivial :
  wf_unsigned (u_unsigned ex_2930) /\ len (signing_payload (u_unsigned ex_2930) (Some 2022)) < 2^64
  /\ signing_payload (u_unsigned ex_2930) (Some 2022) <> signing_payload (u_unsigned ex_2930) (Some 2023).
Proof. split; [apply ex_2930_wf|]. split; [vm_compute; reflexivity|vm_compute; discriminate]. Qed.

(* ================= C03 ================= *)
(** C03 is false: three kinds of input crash the decoder. *)
Definition crash_interop : bytes :=
  enc_str (enc_list [enc_uint 0; enc_uint 1; enc_uint 1; enc_str []; enc_uint 0; enc_str [];
                     enc_uint 37; enc_str []; enc_str (repeat 1 65)]).
Theorem C03_decode_panics_refuted : forall keccak recover,
  dec_utx keccak [] = Panic /\
  dec_stx keccak recover [128] = Panic /\
  dec_stx keccak recover crash_interop = Panic.
Proof. intros. repeat split; vm_compute; reflexivity. Qed.
Print Assumptions C03_decode_panics_refuted.

(** What holds: raw decoding panics on the empty string only; signed decoding
    only on an empty payload or an interoperation signature with an empty r. *)
Theorem C03_no_panic_partial : forall keccak recover b,
  (dec_utx keccak b = Panic <-> b = []) /\
  (dec_stx keccak recover b = Panic <->
   (data_ b = Some [] \/
    exists raw t s, data_ b = Some raw /\ dec_utx keccak raw = Ok t /\ u_sig t = Some s /\
                    sg_r s = [] /\ is_eth_sig s = false)).
Proof. intros keccak recover b. exact (conj (dec_utx_panic_iff keccak b) (dec_stx_panic_iff keccak recover b)). Qed.
Print Assumptions C03_no_panic_partial.
Example C03_error_without_panic : dec_utx keccak256 [2; 193; 128] = Err /\ dec_utx keccak256 [5] = Err.
Proof. split; vm_compute; reflexivity. Qed.

(* ================= C04 ================= *)
(** Same content, possibly different hash field. *)
Definition same_tx (a b : utx) : Prop :=
  u_unsigned a = u_unsigned b /\ u_sig a = u_sig b /\ u_chain a = u_chain b.

(** C04 is false: appending a stray byte to an accepted transaction keeps it
    accepted with the same content, and the hash is the digest of the longer string. *)
Theorem C04_canonical_refuted : forall keccak, exists raw raw' t t',
  raw <> raw' /\ dec_utx keccak raw = Ok t /\ dec_utx keccak raw' = Ok t' /\ same_tx t t' /\
  enc_utx t' <> raw' /\ u_hash t = keccak raw /\ u_hash t' = keccak raw'.
Proof.
  intros keccak. exists v_1559, (v_1559 ++ [184]).
  eexists _, _. split; [vm_compute; discriminate|].
  split; [vm_compute; reflexivity|]. split; [vm_compute; reflexivity|].
  split; [repeat split|]. split; [vm_compute; discriminate|]. split; reflexivity.
Qed.
Print Assumptions C04_canonical_refuted.

(** With the real digest the decoded hash then differs from the recomputed one. *)
Theorem C04_hash_mismatch_refuted :
  exists raw t, dec_utx keccak256 raw = Ok t /\ check_hash keccak256 t = false.
Proof. exists (v_1559 ++ [184]). eexists. split; [vm_compute; reflexivity|]. vm_compute. reflexivity. Qed.
Print Assumptions C04_hash_mismatch_refuted.

(** What holds: on strict inputs (one RLP tree in shortest form, nothing behind it,
    storage keys given as lists) decoding is canonical and the hash check passes. *)
Theorem C04_canonical_partial : forall keccak raw t,
  strict_raw raw -> dec_utx keccak raw = Ok t -> enc_utx t = raw /\ check_hash keccak t = true.
Proof.
  intros keccak raw t S D. destruct (canon keccak raw t S D) as [E H]. split; [exact E|].
  unfold check_hash, get_hash. rewrite E, H. now apply beqb_eq.
Qed.
Print Assumptions C04_canonical_partial.

Theorem C04_unique_partial : forall keccak raw raw' t t',
  strict_raw raw -> strict_raw raw' -> dec_utx keccak raw = Ok t -> dec_utx keccak raw' = Ok t' ->
  same_tx t t' -> raw = raw'.
Proof.
  intros keccak raw raw' t t' S S' D D' (Eu & Es & Ec).
  destruct (canon keccak raw t S D) as [E _]. destruct (canon keccak raw' t' S' D') as [E' _].
  rewrite <- E, <- E'. unfold enc_utx. now rewrite Eu, Es, Ec.
Qed.
Print Assumptions C04_unique_partial.

From Coq Require Import String.
Open Scope N_scope.
(** The published EIP-1559 vector is a strict input. *)
Definition v_1559_tree : tree :=
  TNode [TStr [5]; TStr [5]; TStr [3]; TStr [3]; TStr [82; 8];
         TStr (unhex "a15da349978753d846eede580c7de8e590c1e5b8"%string); TStr (unhex "2386f26fc10000"%string); TStr [];
         TNode []; TStr [];
         TStr (unhex "97d7a69ce423c2a5814daf71345b49698db5839e092f744e263983b56a992b87"%string);
         TStr (unhex "2a5e12966dccbc8e3f6f21ffb528372c915c202381cfcbe3b8cf8ef8af273e99"%string)].
Example v_1559_strict : strict_raw v_1559.
Proof.
  assert (v_1559 = 2 :: enc_tree v_1559_tree) as -> by (vm_compute; reflexivity).
  apply strict_1559; [|vm_compute; reflexivity|constructor].
  repeat split; apply Forall_forall; intros x H; vm_compute in H;
    repeat (destruct H as [<-|H]; [reflexivity|]); destruct H.
Qed.
