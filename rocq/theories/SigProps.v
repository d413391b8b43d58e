(** C96: a transaction of an account needs the signature of its key. *)
From Verif Require Import Bytes BytesProofs Rlp RlpProofs Keccak TxModel TxSpec TxProofs TxProps PoolModel PoolProofs PoolProps MempoolModel
  MempoolProps SigModel.
From Verif Require TrieCodec.
From stdpp Require Import base gmap.
From Coq Require Import Lia.
Local Open Scope N_scope.

(** How a transaction reaches the pool: decoded from a message of a peer, or built from what a user submitted. *)
Definition arrived (keccak : bytes → bytes) (recover : bytes → bytes → option bytes) (t : stx) : Prop :=
  (∃ b, dec_stx keccak recover b = Ok t) ∨ (∃ u, from_unverified keccak recover u = Ok t).
(** The transaction bears a 65-byte signature, as those of Ethereum wallets do. *)
Definition plain (t : stx) : Prop := ∃ s, u_sig (s_tx t) = Some s ∧ (length (sg_r s) + length (sg_s s) = 64)%nat.
(** The address of a key (Ethereum). *)
Definition address_of (keccak : bytes → bytes) (p : bytes) : bytes := skipn 12 (keccak p).
(** What is signed: the encoding without a signature. *)
Definition content (t : stx) : bytes := enc_unsigned (u_unsigned (s_tx t)) (u_chain (s_tx t)) None.

Section Sender.
  Context (keccak : bytes → bytes) (recover : bytes → bytes → option bytes).
  Context (secp_verify : bytes → bytes → bytes → bool) (cells : bytes → N → option bytes) (vm : bytes → list bytes → N → option (N * N)).
  Notation so := (sig_ok keccak secp_verify cells vm).

  Lemma arrived_sender t : arrived keccak recover t → ∃ s a p, u_sig (s_tx t) = Some s ∧ sender_of keccak recover (s_tx t) s = Ok (a, p) ∧
    s_sender t = a ∧ s_public t = Some p.
  Proof.
    intros [[b H]|[u H]].
    - unfold dec_stx in H. destruct (data_ b) as [raw|]; [|done]. destruct (dec_utx keccak raw) as [u| |]; [|done|done].
      destruct (u_sig u) as [s|] eqn:ES; [|done]. destruct (sender_of keccak recover u s) as [[a p]| |] eqn:E; [|done|done].
      injection H as <-. cbn. eauto 10.
    - unfold from_unverified in H. destruct (u_sig u) as [s|] eqn:ES; [|done]. destruct (sender_of keccak recover u s) as [[a p]| |] eqn:E; [|done|done].
      injection H as <-. cbn. exists s, a, p. split; [done|]. split; [|done]. exact E.
  Qed.

  (** The check ends with a verdict: no transaction that arrives makes it panic. *)
  Theorem C96_no_panic t : arrived keccak recover t → verify_signature keccak secp_verify cells vm t ≠ Panic.
  Proof.
    intros (s & a & p & ES & E & _ & EP)%arrived_sender. unfold verify_signature. rewrite ES, EP. unfold sender_of in E.
    destruct (is_eth_sig s); [by destruct (secp_verify _ _ _)|]. unfold interop_sender in E. destruct (sg_r s) as [|x r]; [done|].
    destruct (dec_cell_dep_with_pub_key r) as [[[[h i] d] k]|]; [|done]. unfold call_ckb_vm. destruct (cells h i) as [pr|]; [|done].
    by destruct (vm pr _ _).
  Qed.

  (** Senders are addresses. *)
  Theorem C96_address t : (∀ x, length (keccak x) = 32%nat) → arrived keccak recover t → length (s_sender t) = 20%nat.
  Proof.
    intros HK (s & a & p & _ & E & -> & _)%arrived_sender. unfold sender_of in E. destruct (is_eth_sig s).
    - destruct (recover _ _); [|done]. injection E as <- _. unfold public_to_address, low20. by rewrite skipn_length, HK.
    - unfold interop_sender in E. destruct (sg_r s) as [|[|x] r]; [done| |done].
      destruct (dec_cell_dep_with_pub_key r) as [[d k]|]; [|done]. injection E as <- _. unfold low20. by rewrite skipn_length, HK.
  Qed.

  (** An accepted transaction with a 65-byte signature: the signature is one of its content by the key of its sender. *)
  Theorem C96_signed_partial c e ca s t s' ca' : filed s → coherent e ca → u64_nonces e → u64_fields t → arrived keccak recover t → plain t →
    mempool_insert so c e ca s t = (Ok s', ca') → pool_contains s (hash_of t) = false →
    ∃ p g, address_of keccak p = s_sender t ∧ u_sig (s_tx t) = Some g ∧
      secp_verify (keccak (content t)) (sg_r g ++ sg_s g ++ [sg_v g]) (firstn 65 (4 :: p)) = true.
  Proof.
    intros F HC HN HU A (g & EG & L) H HP. destruct (C55_admitted so c e ca s t s' ca' F HC HN HU H HP) as ((_ & _ & _ & (_ & _ & SO) & _) & _).
    destruct (arrived_sender t A) as (g' & a & p & EG' & E & ES & EP). rewrite EG in EG'. injection EG' as <-.
    assert (is_eth_sig g = true) as EE. { unfold is_eth_sig, sig_len. apply Nat.eqb_eq. lia. }
    unfold sig_ok, verify_signature in SO. rewrite EG, EE, EP in SO. unfold sender_of in E. rewrite EE in E.
    destruct (recover (signature_hash keccak (s_tx t)) (sig_bytes g)) as [q|] eqn:ER; [|done]. injection E as <- <-.
    exists q, g. split; [by rewrite ES|]. split; [done|]. unfold signature_hash, signing_payload, sig_bytes, intact in SO. unfold content.
    by destruct (secp_verify _ _ _).
  Qed.

  (** Hence, if the holder of a key signs nothing but [signed], no transaction with a 65-byte signature and other content is accepted from the
      address of the key; short of two keys with one address or two contents with one digest. *)
  Theorem C96_authentic_partial c e ca s t s' ca' p (signed : list bytes) :
    filed s → coherent e ca → u64_nonces e → u64_fields t → arrived keccak recover t → plain t →
    mempool_insert so c e ca s t = (Ok s', ca') → pool_contains s (hash_of t) = false →
    (∀ h g, secp_verify h g (firstn 65 (4 :: p)) = true → ∃ m, m ∈ signed ∧ h = keccak m) →
    s_sender t = address_of keccak p →
    content t ∈ signed ∨ (∃ q, q ≠ p ∧ address_of keccak q = address_of keccak p) ∨ (∃ m, m ≠ content t ∧ keccak m = keccak (content t)).
  Proof.
    intros F HC HN HU A PL H HP UF SE.
    destruct (C96_signed_partial c e ca s t s' ca' F HC HN HU A PL H HP) as (q & g & AQ & _ & V).
    destruct (decide (q = p)) as [->|N]; [|right; left; exists q; split; [done|congruence]].
    destruct (UF _ _ V) as (m & Hm & E). destruct (decide (m = content t)) as [->|N]; [by left|].
    right; right. exists m. split; [done|]. by symmetry.
  Qed.

  (** ** The other kind of signature *)
  Lemma cell_dep_r_len h i d (p : bytes) : length h = 32%nat → i < 2 ^ 32 → d < 256 → len p < 2 ^ 32 → len (cell_dep_r h i d p) < 2 ^ 33.
  Proof.
    intros Hh Hi Hd Lp. unfold cell_dep_r. rewrite len_cons.
    assert (len (enc_hash h) <= 41) as B1. { unfold enc_hash. pose proof (TrieCodec.enc_str_max h) as B. unfold len in *. rewrite Hh in B. lia. }
    assert (len (be_min i) <= 4) as B2. { unfold len. rewrite be_min_length. pose proof (nbytes_le i 4 Hi). lia. }
    assert (len (be_min d) <= 1) as B3. { unfold len. rewrite be_min_length. pose proof (nbytes_le d 1 Hd). lia. }
    assert (len (enc_uint i) <= 13) as B4. { unfold enc_uint. pose proof (TrieCodec.enc_str_max (be_min i)). lia. }
    assert (len (enc_uint d) <= 10) as B5. { unfold enc_uint. pose proof (TrieCodec.enc_str_max (be_min d)). lia. }
    assert (len (enc_str p) <= len p + 9) as B6. { apply TrieCodec.enc_str_max. lia. }
    unfold enc_list. cbn [concat]. rewrite !app_nil_r, !len_app.
    pose proof (TrieCodec.enc_header_len 192 (len (enc_hash h) + (len (enc_uint i) + len (enc_uint d)))).
    pose proof (TrieCodec.enc_header_len 192 (len (enc_header 192 (len (enc_hash h) + (len (enc_uint i) + len (enc_uint d)))) +
      (len (enc_hash h) + (len (enc_uint i) + len (enc_uint d))) + len (enc_str p))).
    lia.
  Qed.
  Lemma dec_cell_dep_r h i d p : fixed 32 h → i < 2 ^ 32 → d < 256 → wf_bytes p → len p < 2 ^ 32 →
    dec_cell_dep_with_pub_key (tail (cell_dep_r h i d p)) = Some ((h, i, d), p).
  Proof.
    intros Hh Hi Hd Wp Lp. pose proof (cell_dep_r_len h i d p (proj2 Hh) Hi Hd Lp) as LL. unfold cell_dep_r in *. cbn [tail]. rewrite len_cons in LL.
    assert (i < 256 ^ N.of_nat 4) as Hi4 by exact Hi.
    assert (d < 256 ^ N.of_nat 1) as Hd1 by exact Hd.
    assert (len p < 2 ^ 64) as Lp64 by (eapply N.lt_trans; [exact Lp|reflexivity]).
    set (l1 := [enc_hash h; enc_uint i; enc_uint d]) in *.
    set (l2 := [enc_list l1; enc_str p]) in *.
    assert (len (concat l2) < 2 ^ 64) as L2. { pose proof (enc_list_len l2). lia. }
    assert (len (concat l1) < 2 ^ 64) as L1.
    { pose proof (enc_list_len l1). assert (len (enc_list l1) <= len (concat l2)). { apply concat_len_in. by left. } lia. }
    assert (Forall is_item l1) as I1.
    { unfold l1. constructor; [apply (item_fixed 32); [done|reflexivity]|]. constructor; [apply (is_item_uint i 4); [done|lia]|].
      constructor; [apply (is_item_uint d 1); [done|lia]|]. constructor. }
    assert (Forall is_item l2) as I2.
    { unfold l2. constructor; [by apply is_item_list|]. constructor; [by apply is_item_str|]. constructor. }
    unfold dec_cell_dep_with_pub_key. rewrite (val_at_list _ l2 0 _ I2 L2 eq_refl), (val_at_list _ l2 1 _ I2 L2 eq_refl).
    unfold dec_cell_dep. rewrite (val_at_list _ l1 0 _ I1 L1 eq_refl), (val_at_list _ l1 1 _ I1 L1 eq_refl), (val_at_list _ l1 2 _ I1 L1 eq_refl).
    rewrite (dec_fixed 32 h Hh eq_refl). cbn [obind]. rewrite (dec_uint_enc 4 i Hi4) by lia. cbn [obind]. rewrite (dec_uint_enc 1 d Hd1) by lia. cbn [obind].
    by rewrite dec_value_str0.
  Qed.

  (** The transaction that anybody can make for the account of the public key [p]: its signature names a cell and has an empty second part. *)
  Definition forged (u : unsigned) (chain : option N) (h : bytes) (i : N) (p : bytes) : utx :=
    Utx u (Some (SigC (cell_dep_r h i 0 p) [] 0)) chain [].

  Lemma forged_sender u chain h i p : fixed 32 h → i < 2 ^ 32 → wf_bytes p → len p < 2 ^ 32 → 64 <= len p →
    from_unverified keccak recover (forged u chain h i p) =
      Ok (Stx (calc_hash keccak (forged u chain h i p)) (address_of keccak p) (Some (repeat 0 64))).
  Proof.
    intros Hh Hi Wp Lp Kp. unfold from_unverified, forged at 1. cbn [u_sig].
    assert (64 < length (cell_dep_r h i 0 p))%nat as LR.
    { unfold cell_dep_r. cbn [length]. pose proof (enc_list_len [enc_list [enc_hash h; enc_uint i; enc_uint 0]; enc_str p]) as B.
      cbn [concat] in B. rewrite !len_app in B. pose proof (enc_str_len p). unfold len in *. lia. }
    unfold sender_of, is_eth_sig, sig_len. cbn [sg_r sg_s]. cbn [length].
    rewrite (proj2 (Nat.eqb_neq _ _)) by lia. unfold interop_sender. cbn [sg_r].
    pose proof (dec_cell_dep_r h i 0 p Hh Hi ltac:(lia) Wp Lp) as D. unfold cell_dep_r in *. cbn [tail] in D. by rewrite D.
  Qed.

  (** Whoever knows the public key of an account can send any transaction in its name, without a signature, as soon as one program in the
      image cells runs to its end on the arguments; whatever its exit code and whatever the contents of the transaction. *)
  Theorem C96_forgery c e ca s u chain h i p program code cycles :
    fixed 32 h → i < 2 ^ 32 → wf_bytes p → len p = 64 →
    cells h i = Some program → vm program [p; []] (2 ^ 64 - 1) = Some (code, cycles) →
    wf_signed_utx (forged u chain h i p) → len (enc_utx (forged u chain h i p)) < 2 ^ 64 →
    let t := Stx (calc_hash keccak (forged u chain h i p)) (address_of keccak p) (Some (repeat 0 64)) in
    coherent e ca → u64_nonces e → u64_fields t → pool_len s < c →
    sender_ok e t → ¬ reserved_call t → within_rules (e_chain e) (e_max_size e) t → e_stored e (hash_of t) = None →
    dec_stx keccak recover (enc_stx t) = Ok t ∧ from_unverified keccak recover (forged u chain h i p) = Ok t ∧
    s_sender t = address_of keccak p ∧ ∃ s' ca', mempool_insert so c e ca s t = (Ok s', ca').
  Proof.
    intros Hh Hi Wp Lp HC HV W L t CO UN UF PL SE NR WR ST.
    assert (from_unverified keccak recover (forged u chain h i p) = Ok t) as FU by (apply forged_sender; [done|done|done|lia|lia]).
    destruct (C01_signed_roundtrip keccak recover _ _ W L FU) as [_ RT]. split; [done|]. split; [done|]. split; [done|].
    apply C55_accepts; [done..|]. split; [done|]. split; [done|]. split; [done|]. split; [|done].
    split; [by eexists|]. split; [by eexists|]. unfold sig_ok, verify_signature. unfold t at 1. cbn [s_tx calc_hash u_sig forged].
    assert (64 < length (cell_dep_r h i 0 p))%nat as LR.
    { unfold cell_dep_r. cbn [length]. pose proof (enc_list_len [enc_list [enc_hash h; enc_uint i; enc_uint 0]; enc_str p]) as B.
      cbn [concat] in B. rewrite !len_app in B. pose proof (enc_str_len p). unfold len in *. lia. }
    unfold is_eth_sig, sig_len. cbn [sg_r sg_s]. cbn [length]. rewrite (proj2 (Nat.eqb_neq _ _)) by lia.
    pose proof (dec_cell_dep_r h i 0 p Hh Hi ltac:(lia) Wp ltac:(lia)) as D. unfold cell_dep_r in *. cbn [tail] in D. rewrite D.
    unfold call_ckb_vm. cbn [sg_s]. rewrite HC. change (vm program [p; []] (2 ^ 64 - 1)) with (vm program [p; [] : bytes] (2 ^ 64 - 1)) in HV. change bytes with (list N) in *. by rewrite HV.
  Qed.

  (** A signature of this kind says nothing about the transaction: one that has been seen serves for every other transaction, which then has
      the same sender. *)
  Theorem C96_reuse u u' chain chain' k k' g a a' q q' : (length (sg_r g) + length (sg_s g) ≠ 64)%nat →
    so (Stx (Utx u (Some g) chain k) a q) = so (Stx (Utx u' (Some g) chain' k') a' q') ∧
    sender_of keccak recover (Utx u (Some g) chain k) g = sender_of keccak recover (Utx u' (Some g) chain' k') g.
  Proof.
    intros L. unfold sig_ok, verify_signature, sender_of. cbn [s_tx u_sig].
    assert (is_eth_sig g = false) as -> by (unfold is_eth_sig, sig_len; apply Nat.eqb_neq; lia). done.
  Qed.

  (** An accepted transaction with a signature of this kind: the cell that it names is an image cell, and the program in it ran to its end on
      the public key of the sender and the second part of the signature. *)
  Theorem C96_program c e ca s t s' ca' : filed s → coherent e ca → u64_nonces e → u64_fields t → arrived keccak recover t → ¬ plain t →
    mempool_insert so c e ca s t = (Ok s', ca') → pool_contains s (hash_of t) = false →
    ∃ g r h i d p program code cycles, u_sig (s_tx t) = Some g ∧ sg_r g = 0 :: r ∧ dec_cell_dep_with_pub_key r = Some ((h, i, d), p) ∧
      s_sender t = address_of keccak p ∧ cells h i = Some program ∧ vm program [p; sg_s g] (2 ^ 64 - 1) = Some (code, cycles).
  Proof.
    intros F HC HN HU A PL H HP. destruct (C55_admitted so c e ca s t s' ca' F HC HN HU H HP) as ((_ & _ & _ & (_ & _ & SO) & _) & _).
    destruct (arrived_sender t A) as (g & a & q & EG & E & ES & EP).
    assert (is_eth_sig g = false) as EE.
    { unfold is_eth_sig, sig_len. apply Nat.eqb_neq. intros L. apply PL. exists g. split; [done|lia]. }
    unfold sig_ok, verify_signature in SO. rewrite EG, EE in SO. unfold sender_of in E. rewrite EE in E. unfold interop_sender in E.
    destruct (sg_r g) as [|[|x] r] eqn:R; [done| |done].
    destruct (dec_cell_dep_with_pub_key r) as [[[[h i] d] p]|] eqn:D; [|done]. injection E as E1 E2.
    unfold call_ckb_vm in SO. destruct (cells h i) as [program|] eqn:C; [|done].
    match type of SO with context [vm ?a ?b ?c] => destruct (vm a b c) as [[code cycles]|] eqn:V end; [|done].
    exists g, r, h, i, d, p, program, code, cycles. repeat split; try done. by rewrite ES, <- E1.
  Qed.
End Sender.
Print Assumptions C96_program.
Print Assumptions C96_no_panic.
Print Assumptions C96_address.
Print Assumptions C96_signed_partial.
Print Assumptions C96_authentic_partial.
Print Assumptions C96_forgery.
Print Assumptions C96_reuse.

(** ** A concrete forgery *)
Definition victim : bytes := repeat 7 64.
Definition loot : unsigned := Legacy (LegacyTx 0 10 21000 (Call (repeat 9 20)) (10 ^ 17) []).
(** One cell; every program ends with exit code 1. *)
Definition cells1 (h : bytes) (i : N) : option bytes := if i =? 0 then Some [1; 2; 3] else None.
Definition vm1 (program : bytes) (args : list bytes) (max : N) : option (N * N) := Some (1, 10).
(** No signature verifies and no key can be recovered. *)
Definition no_verify (h g p : bytes) : bool := false.
Definition no_recover (h g : bytes) : option bytes := None.
Definition loot_tx : utx := forged loot (Some 5) (repeat 3 32) 0 victim.

(** As stated, that an accepted transaction bears a signature by the key of its sender, the claim is false: the pool takes, from raw bytes
    submitted by anybody, a transfer out of the account of the victim. *)
Theorem C96_sender_refuted : ∃ raw t,
  from_unverified keccak256 no_recover t = Ok (Stx (calc_hash keccak256 t) (address_of keccak256 victim) (Some (repeat 0 64))) ∧
  raw = enc_utx t ∧ tx_value (u_unsigned t) = 10 ^ 17 ∧
  match send_raw_transaction keccak256 no_recover (sig_ok keccak256 no_verify cells1 vm1) 100 30000000 env0 ∅ pool_new raw with
  | (Ok (h, s'), _) => h = keccak256 raw ∧ pool_contains s' (be_val h) = true ∧ pool_contains pool_new (be_val h) = false
  | _ => False
  end.
Proof.
  exists (enc_utx loot_tx), loot_tx. split; [vm_compute; reflexivity|]. split; [reflexivity|]. split; [reflexivity|].
  vm_compute. repeat split.
Qed.
Print Assumptions C96_sender_refuted.

(** The hypotheses of [C96_forgery] are met. *)
Example C96_forgery_nontrivial :
  let t := Stx (calc_hash keccak256 loot_tx) (address_of keccak256 victim) (Some (repeat 0 64)) in
  wf_signed_utx loot_tx ∧ len (enc_utx loot_tx) < 2 ^ 64 ∧ within_rules (e_chain env0) (e_max_size env0) t ∧ sender_ok env0 t ∧ ¬ reserved_call t.
Proof.
  split; [|split; [vm_compute; reflexivity|split; [|split]]].
  - wf_tac. right. vm_compute. lia.
  - split; [by right|]. split; [vm_compute; discriminate|]. vm_compute. repeat split; discriminate.
  - right. split; [|vm_compute; split; discriminate]. intros (k & Hk & E). apply (f_equal (λ a, match a with Call x => head x | Create => None end)) in E.
    vm_compute in E. discriminate E.
  - intros (a & E & F & _). injection E as <-. vm_compute in F. discriminate F.
Qed.

(** The hypotheses of [C96_signed_partial] are met: a transaction with a 65-byte signature whose key verifies exactly its content. *)
Definition key1 : bytes := repeat 1 64.
Definition verify1 (t : stx) (h g p : bytes) : bool := beqb h (keccak256 (content t)) && beqb p (4 :: key1).
Definition plain_utx : utx := Utx loot (Some (SigC (repeat 2 32) (repeat 3 32) 1)) (Some 5) [].
Example C96_signed_nontrivial :
  match from_unverified keccak256 rec0 plain_utx with
  | Ok t => plain t ∧ s_sender t = address_of keccak256 key1 ∧
      (∃ s' ca', mempool_insert (sig_ok keccak256 (verify1 t) cells1 vm1) 100 env0 ∅ pool_new t = (Ok s', ca')) ∧
      (∃ ca', mempool_insert (sig_ok keccak256 no_verify cells1 vm1) 100 env0 ∅ pool_new t = (Err, ca'))
  | _ => False
  end.
Proof.
  destruct (from_unverified keccak256 rec0 plain_utx) as [t| |] eqn:E; [|vm_compute in E; discriminate E|vm_compute in E; discriminate E].
  assert (t = Stx (calc_hash keccak256 plain_utx) (address_of keccak256 key1) (Some key1)) as ->.
  { unfold from_unverified in E. cbn [plain_utx u_sig] in E. unfold sender_of in E. change (is_eth_sig (SigC (repeat 2 32) (repeat 3 32) 1)) with true in E.
    unfold rec0 in E. injection E as <-. reflexivity. }
  split; [eexists; split; reflexivity|]. split; [reflexivity|]. split.
  - eexists _, _. vm_compute. reflexivity.
  - eexists _. vm_compute. reflexivity.
Qed.
