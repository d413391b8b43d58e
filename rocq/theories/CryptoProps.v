(** C77: votes are checked with the keys of the validators of the height. *)
From Verif Require Import Bytes BytesProofs Rlp RlpProofs TxModel MetaModel MetaProofs MetaProps CryptoModel.
From Verif Require ConsensusModel.
From stdpp Require Import base gmap list.
From Coq Require Import Lia.
Local Open Scope N_scope.

(* ------------------------------------------------------------------------ *)
(** * What is assumed of BLS, and what the claims say *)

(** [signed s h k]: the pairing equation of signature [s], message [h] and key [k].  It is additive in signature and key;
    a signature made with a secret satisfies it for the public key; the library accepts when it holds and
    the key is not the point at infinity. *)
Record bls_ok (B : bls) (signed : Sg B -> bytes -> K B -> Prop) (inf : K B -> Prop) : Prop := {
  ok_assoc : forall a b c, kadd B a (kadd B b c) = kadd B (kadd B a b) c;
  ok_comm : forall a b, kadd B a b = kadd B b a;
  ok_sig : forall s, sig_of B (sig_bytes B s) = Some s;
  ok_sign : forall x h, signed (sign1 B x h) h (pub B x);
  ok_add : forall s s' h k k', signed s h k -> signed s' h k' -> signed (sadd B s s') h (kadd B k k');
  ok_verify : forall s h k, verify1 B s h k = true <-> signed s h k /\ ~ inf k }.

(** The validator that counts for public key [p] at height [h]: the last one listed under it. *)
Definition in_force (m : meta) (h : N) (p b : bytes) : Prop :=
  exists md l1 v l2, metadata_by_block m h = Ok md /\ mi_verifiers (md_inner md) = l1 ++ v :: l2 /\
    v_pub v = p /\ v_bls v = b /\ Forall (fun w => v_pub w <> p) l2.
(** The key map holds the validators of the next height, and nobody else. *)
Definition keys_right {B} (n : cnode B) : Prop :=
  forall p k, cn_keys B n !! p = Some k <-> exists b, in_force (cn_meta B n) (cn_number B n + 1) p b /\ key_of B b = Some k.
(** So does the authority list. *)
Definition auth_right {B} (n : cnode B) : Prop :=
  exists md, metadata_by_block (cn_meta B n) (cn_number B n + 1) = Ok md /\ cn_auth B n = mi_verifiers (md_inner md).

(** The contract after some more blocks. *)
Definition extends (m m' : meta) : Prop := exists evs, Forall ev_ok evs /\ mrun m evs = Ok m'.
(** [n] is the last block of an epoch: the block after it belongs to another one. *)
Definition ends_epoch (m : meta) (n : N) : Prop :=
  exists md, metadata_by_block m n = Ok md /\ mi_end (md_inner md) = n.

(* ------------------------------------------------------------------------ *)
(** * The contract's store as the chain grows *)

Lemma mrun_inv m evs m' : minv m -> Forall ev_ok evs -> mrun m evs = Ok m' -> minv m'.
Proof.
  revert m. induction evs as [|ev evs IH]; cbn; intros m M F E; [by injection E as <-|].
  destruct (mapply m ev) as [m1| |] eqn:A; try done. apply Forall_cons in F as [F1 F2]. eapply IH; [|done|done].
  eapply minv_step; [done|]. destruct ev; cbn in A; try (injection A as <-; constructor); by econstructor.
Qed.

Lemma mapply_keeps m ev m' : minv m -> mapply m ev = Ok m' ->
  (exists s, mt_segment m' = mt_segment m ++ s) /\
  forall e i, mt_inner m !! e = Some i -> exists i', mt_inner m' !! e = Some i' /\ mi_verifiers i' = mi_verifiers i /\ mi_end i' = mi_end i.
Proof.
  intros M E. destruct ev; cbn in E; try (injection E as <-; split; [exists []; by rewrite app_nil_r|by eauto]).
  - pose proof (append_epoch _ _ _ _ M E) as EP. apply append_inv in E as (_ & _ & _ & _ & ->).
    cbn [mt_segment mt_inner]. split; [by eexists|]. intros e i L. exists i. split; [|done].
    rewrite lookup_insert_ne; [done|]. intros <-.
    assert (is_Some (mt_inner m !! mi_epoch (md_inner md))) as D by eauto. apply (mi_dom _ M) in D. lia.
  - apply count_inv in E as (e & i & c & _ & L & _ & ->). cbn [mt_segment mt_inner].
    split; [exists []; by rewrite app_nil_r|]. intros e' i' L'.
    pose proof (mi_ent _ M _ _ L) as (<- & _). destruct (decide (mi_epoch i = e')) as [<-|NE].
    + rewrite L in L'. injection L' as <-. rewrite lookup_insert. by eauto.
    + rewrite lookup_insert_ne by done. by eauto.
Qed.

Lemma extends_keeps m m' : minv m -> extends m m' ->
  minv m' /\ (exists s, mt_segment m' = mt_segment m ++ s) /\
  forall e i, mt_inner m !! e = Some i -> exists i', mt_inner m' !! e = Some i' /\ mi_verifiers i' = mi_verifiers i /\ mi_end i' = mi_end i.
Proof.
  intros M (evs & F & E). revert m M F E. induction evs as [|ev evs IH]; cbn; intros m M F E.
  - injection E as <-. split; [done|]. split; [exists []; by rewrite app_nil_r|by eauto].
  - destruct (mapply m ev) as [m1| |] eqn:A; try done. apply Forall_cons in F as [F1 F2].
    assert (M1 : minv m1) by (apply (mrun_inv m [ev]); [done|by constructor|cbn; by rewrite A]).
    destruct (mapply_keeps _ _ _ M A) as ((s & S1) & K1). destruct (IH _ M1 F2 E) as (M2 & (s' & S2) & K2).
    split; [done|]. split; [exists (s ++ s'); rewrite S2, S1; by rewrite app_assoc|].
    intros e i L. destruct (K1 _ _ L) as (i1 & L1 & V1 & X1). destruct (K2 _ _ L1) as (i2 & L2 & V2 & X2).
    exists i2. split; [done|]. by rewrite V2, X2.
Qed.

(** reading the metadata of a block other than the genesis block *)
Lemma by_block_inv m n md : minv m -> n <> 0 -> metadata_by_block m n = Ok md ->
  exists e i a, get_epoch_number (mt_segment m) n = Some e /\ mt_inner m !! e = Some i /\ md_inner md = i /\
    mt_segment m !! N.to_nat e = Some a /\ mt_segment m !! S (N.to_nat e) = Some (mi_end i) /\ a < n <= mi_end i.
Proof.
  intros M NZ E. unfold metadata_by_block in E. rewrite (proj2 (N.eqb_neq n 0) NZ) in E.
  destruct (get_epoch_number _ n) as [e|] eqn:G; [|done].
  unfold get_metadata, get_metadata_inner in E. destruct (mt_inner m !! e) as [i|] eqn:L; [|done].
  destruct (get_consensus_config m) as [c| |]; try done. injection E as <-.
  apply epoch_number_iff in G as G'; [|apply M]. destruct G' as (a & b & A & Bb & H).
  pose proof (mi_ent _ M _ _ L) as (_ & X & _). rewrite X in Bb. injection Bb as <-.
  exists e, i, a. done.
Qed.
Lemma by_block_intro m n e i a : minv m -> mt_inner m !! e = Some i ->
  mt_segment m !! N.to_nat e = Some a -> mt_segment m !! S (N.to_nat e) = Some (mi_end i) -> a < n <= mi_end i ->
  exists md, metadata_by_block m n = Ok md /\ md_inner md = i.
Proof.
  intros M L A Bb H. unfold metadata_by_block. rewrite (proj2 (N.eqb_neq n 0)) by lia.
  assert (G : get_epoch_number (mt_segment m) n = Some e) by (apply epoch_number_iff; [apply M|]; eauto).
  rewrite G. unfold get_metadata, get_metadata_inner. rewrite L. destruct (inner_config _ _ _ M L) as (c & ->). by eexists.
Qed.

Lemma last_block_in m n : is_last_block_in_epoch (mt_segment m) n = true <-> n ∈ mt_segment m.
Proof.
  unfold is_last_block_in_epoch. rewrite existsb_exists. split.
  - intros (x & X & E). apply N.eqb_eq in E as ->. by apply elem_of_list_In.
  - intros X. exists n. split; [by apply elem_of_list_In|apply N.eqb_refl].
Qed.
(** the segment's endpoints are the last blocks of the epochs *)
Lemma ends_epoch_in m n : minv m -> n <> 0 -> ends_epoch m n <-> n ∈ mt_segment m.
Proof.
  intros M NZ. split.
  - intros (md & E & X). destruct (by_block_inv _ _ _ M NZ E) as (e & i & a & _ & _ & <- & _ & Y & _).
    rewrite X in Y. by eapply elem_of_list_lookup_2.
  - intros X. apply elem_of_list_lookup in X as (j & J). destruct j as [|j].
    { rewrite (mi_zero _ M) in J. by injection J as <-. }
    destruct (mt_inner m !! N.of_nat j) as [i|] eqn:L.
    2: { assert (is_Some (mt_inner m !! N.of_nat j)) as [? ?]; [|congruence].
         apply (mi_dom _ M). apply lookup_lt_Some in J. lia. }
    pose proof (mi_ent _ M _ _ L) as (_ & Y & _). rewrite Nat2N.id in Y. rewrite J in Y. injection Y as ->.
    destruct (mt_segment m !! j) as [a|] eqn:A; [|apply lookup_ge_None in A; apply lookup_lt_Some in J; lia].
    destruct (by_block_intro m (mi_end i) (N.of_nat j) i a M L) as (md & E & X); rewrite ?Nat2N.id; try done.
    + split; [|lia]. exact (mi_inc _ M _ _ _ _ A J ltac:(lia)).
    + exists md. split; [done|]. by rewrite X.
Qed.

(** inside an epoch the validators of the next height stay the same *)
Lemma same_epoch m m' n n' md : minv m -> extends m m' -> n <= n' ->
  metadata_by_block m (n + 1) = Ok md -> (forall x, n < x <= n' -> ~ ends_epoch m' x) ->
  exists md', metadata_by_block m' (n' + 1) = Ok md' /\ mi_verifiers (md_inner md') = mi_verifiers (md_inner md).
Proof.
  intros M X LE E NE. destruct (extends_keeps _ _ M X) as (M' & (s & S1) & KP).
  destruct (by_block_inv m (n + 1) md M ltac:(lia) E) as (e & i & a & _ & L & <- & A & Bb & H).
  destruct (KP _ _ L) as (i' & L' & V & Y).
  assert (A' : mt_segment m' !! N.to_nat e = Some a) by (rewrite S1; by apply lookup_app_l_Some).
  assert (B' : mt_segment m' !! S (N.to_nat e) = Some (mi_end i')) by (rewrite S1, Y; by apply lookup_app_l_Some).
  assert (n' < mi_end i').
  { destruct (N.lt_ge_cases n' (mi_end i')) as [?|G]; [done|]. exfalso. apply (NE (mi_end i')); [lia|].
    apply ends_epoch_in; [done|lia|]. by eapply elem_of_list_lookup_2. }
  destruct (by_block_intro m' (n' + 1) e i' a M' L' A' B') as (md' & E' & X'); [lia|].
  exists md'. split; [done|]. by rewrite X', V.
Qed.

(* ------------------------------------------------------------------------ *)
(** * The key map *)
Section props.
  Context {B : bls}.

  Lemma gen_map_spec (l : list validator) : forall acc r, gen_map B acc l = Some r ->
    (forall v, v ∈ l -> is_Some (key_of B (v_bls v))) /\
    forall p k, r !! p = Some k <->
      (exists l1 v l2, l = l1 ++ v :: l2 /\ v_pub v = p /\ key_of B (v_bls v) = Some k /\ Forall (fun w => v_pub w <> p) l2) \/
      (Forall (fun w => v_pub w <> p) l /\ acc !! p = Some k).
  Proof.
    induction l as [|v l IH]; cbn; intros acc r E.
    - injection E as <-. split; [intros v; by rewrite elem_of_nil|]. intros p k. split.
      + intros H. right. split; [constructor|done].
      + intros [(l1 & v & l2 & X & _)|[_ H]]; [by destruct l1|done].
    - destruct (key_of B (v_bls v)) as [k0|] eqn:K0; [|done]. destruct (IH _ _ E) as (P1 & P2). split.
      { intros w [->|W]%elem_of_cons; [by rewrite K0|by apply P1]. }
      intros p k. rewrite P2. split.
      + intros [(l1 & w & l2 & -> & X)|[F H]].
        * left. exists (v :: l1), w, l2. done.
        * destruct (decide (v_pub v = p)) as [<-|NE].
          -- rewrite lookup_insert in H. injection H as <-. left. exists [], v, l. done.
          -- rewrite lookup_insert_ne in H by done. right. split; [by constructor|done].
      + intros [(l1 & w & l2 & X & Y & Z & W)|[F H]].
        * destruct l1 as [|u l1]; cbn in X; injection X as -> ->.
          -- right. split; [done|]. rewrite <- Y, lookup_insert. congruence.
          -- left. exists l1, w, l2. done.
        * apply Forall_cons in F as [F1 F2]. right. split; [done|]. by rewrite lookup_insert_ne.
  Qed.

  (** A map is built exactly when every validator's key parses. *)
  Lemma gen_map_some acc l : is_Some (gen_map B acc l) <-> forall v, v ∈ l -> is_Some (key_of B (v_bls v)).
  Proof.
    split; [intros [r E]; by eapply gen_map_spec|]. revert acc. induction l as [|v l IH]; cbn; intros acc H; [by eauto|].
    destruct (H v) as [k ->]; [left|]. apply IH. intros w W. apply H. by right.
  Qed.

  Lemma gen_map_right m h md r (n : cnode B) : generate_new_crypto_map B (mi_verifiers (md_inner md)) = Some r ->
    metadata_by_block m h = Ok md -> cn_keys B n = r -> cn_meta B n = m -> cn_number B n + 1 = h -> keys_right n.
  Proof.
    intros G E <- <- <- p k. destruct (gen_map_spec _ _ _ G) as [_ P]. rewrite P. split.
    - intros [(l1 & v & l2 & X & Y & Z & W)|[_ H]]; [|by rewrite lookup_empty in H].
      exists (v_bls v). split; [|done]. by exists md, l1, v, l2.
    - intros (b & (md' & l1 & v & l2 & X & Y & Z & <- & W) & KB). rewrite E in X. injection X as <-.
      left. by exists l1, v, l2.
  Qed.

  Lemma right_same (n n' : cnode B) md md' : keys_right n -> cn_keys B n' = cn_keys B n ->
    metadata_by_block (cn_meta B n) (cn_number B n + 1) = Ok md ->
    metadata_by_block (cn_meta B n') (cn_number B n' + 1) = Ok md' ->
    mi_verifiers (md_inner md') = mi_verifiers (md_inner md) -> keys_right n'.
  Proof.
    intros R EK E E' V p k. rewrite EK, (R p k). unfold in_force. split.
    - intros (b & (x & l1 & v & l2 & X & Y & Z) & KB). rewrite E in X. injection X as <-.
      exists b. split; [|done]. exists md', l1, v, l2. by rewrite V.
    - intros (b & (x & l1 & v & l2 & X & Y & Z) & KB). rewrite E' in X. injection X as <-.
      exists b. split; [|done]. exists md, l1, v, l2. by rewrite <- V.
  Qed.

  (* ---------------------------------------------------------------------- *)
  (** ** C77: single votes *)

  (** A vote counts exactly when its hash has 32 bytes, its sender is a validator of the next height, and the signature
      verifies under the key that validator registered. *)
  Theorem C77_vote : forall (n : cnode B) sig hash voter, keys_right n ->
    verify_signature B (cn_keys B n) sig hash voter = true <->
    len hash = 32 /\ exists b k s, in_force (cn_meta B n) (cn_number B n + 1) voter b /\ key_of B b = Some k /\
      sig_of B sig = Some s /\ verify1 B s hash k = true.
  Proof.
    intros n sig hash voter R. unfold verify_signature. destruct (N.eqb_spec (len hash) 32) as [L|L]; cbn [negb].
    2: { split; [done|]. intros [? _]. done. }
    destruct (cn_keys B n !! voter) as [k|] eqn:EK.
    - apply R in EK as EK'. destruct EK' as (b & F & KB). destruct (sig_of B sig) as [s|] eqn:ES; split.
      + intros V. split; [done|]. by exists b, k, s.
      + intros (_ & b' & k' & s' & F' & KB' & [= <-] & V').
        assert (X : cn_keys B n !! voter = Some k') by (apply R; eauto). rewrite EK in X. by injection X as <-.
      + done.
      + by intros (_ & b' & k' & s' & F' & KB' & ? & V').
    - split; [done|]. intros (_ & b & k & s & F & KB & _). assert (X : cn_keys B n !! voter = Some k) by (apply R; eauto). congruence.
  Qed.

  (* ---------------------------------------------------------------------- *)
  (** ** C77: when the map is right *)

  (** A commit keeps it right. *)
  Theorem C77_commit : forall (n n' : cnode B) m', minv (cn_meta B n) -> extends (cn_meta B n) m' ->
    keys_right n -> auth_right n -> commit_keys B n m' = Ok n' ->
    cn_number B n' = cn_number B n + 1 /\ cn_meta B n' = m' /\ keys_right n' /\ auth_right n'.
  Proof.
    intros n n' m' M X R (md & E & A) C. unfold commit_keys in C.
    destruct (extends_keeps _ _ M X) as (M' & _ & _).
    destruct (is_last_block_in_epoch (mt_segment m') (cn_number B n + 1)) eqn:IL.
    - destruct (metadata_by_block m' (cn_number B n + 1 + 1)) as [md'| |] eqn:E'; try done.
      destruct (generate_new_crypto_map B (mi_verifiers (md_inner md'))) as [k|] eqn:G; [|done]. injection C as <-. cbn.
      split; [done|]. split; [done|]. split; [by eapply gen_map_right|]. by exists md'.
    - destruct (metadata_by_block m' (cn_number B n + 1 + 1)) as [md'| |] eqn:E'; try done. injection C as <-. cbn.
      split; [done|]. split; [done|]. split; [|by exists md'].
      destruct (same_epoch (cn_meta B n) m' (cn_number B n) (cn_number B n + 1) md M X ltac:(lia) E) as (md2 & E2 & V).
      { intros x Hx. replace x with (cn_number B n + 1) by lia. rewrite ends_epoch_in by (done || lia).
        rewrite <- last_block_in. by rewrite IL. }
      rewrite E' in E2. injection E2 as <-. eapply right_same; [exact R| |exact E|exact E'|exact V]. done.
  Qed.

  (** Committing the last block of an epoch makes it right, whatever it was before. *)
  Theorem C77_commit_epoch_end : forall (n n' : cnode B) m', minv (cn_meta B n) -> extends (cn_meta B n) m' ->
    ends_epoch m' (cn_number B n + 1) -> commit_keys B n m' = Ok n' -> keys_right n' /\ auth_right n'.
  Proof.
    intros n n' m' M X EE C. unfold commit_keys in C. destruct (extends_keeps _ _ M X) as (M' & _ & _).
    apply ends_epoch_in in EE; [|done|lia]. apply last_block_in in EE. rewrite EE in C.
    destruct (metadata_by_block m' (cn_number B n + 1 + 1)) as [md'| |] eqn:E'; try done.
    destruct (generate_new_crypto_map B (mi_verifiers (md_inner md'))) as [k|] eqn:G; [|done]. injection C as <-.
    split; [by eapply gen_map_right|]. by exists md'.
  Qed.

  (** Starting makes it right unless the latest block is the last of its epoch. *)
  Theorem C77_boot : forall m number (n : cnode B), minv m -> (number = 0 \/ ~ ends_epoch m number) -> boot B m number = Ok n ->
    cn_number B n = number /\ cn_meta B n = m /\ keys_right n /\ auth_right n.
  Proof.
    intros m number n M NE C. unfold boot in C.
    destruct (metadata_by_block m number) as [md| |] eqn:E; try done.
    destruct (generate_new_crypto_map B (mi_verifiers (md_inner md))) as [k|] eqn:G; [|done].
    destruct (metadata_by_block m (number + 1)) as [nx| |] eqn:E'; try done. injection C as <-. cbn.
    split; [done|]. split; [done|].
    assert (V : mi_verifiers (md_inner nx) = mi_verifiers (md_inner md)).
    { destruct (decide (number = 0)) as [->|NZ].
      - destruct (by_block_inv m (0 + 1) nx M ltac:(lia) E') as (e & i & a & _ & L & <- & A & Bb & H).
        unfold metadata_by_block in E. cbn [N.eqb] in E. unfold get_metadata, get_metadata_inner in E.
        destruct (mt_inner m !! 0) as [i0|] eqn:L0; [|done]. destruct (get_consensus_config m); try done. injection E as <-. cbn.
        assert (e = 0) as ->; [|congruence].
        destruct (decide (e = 0)) as [?|NZ]; [done|]. exfalso.
        assert (a = 0) as -> by lia. pose proof (mi_inc _ M _ _ _ _ (mi_zero _ M) A ltac:(lia)). lia.
      - destruct (by_block_inv _ _ _ M NZ E) as (e & i & a & _ & L & <- & A & Bb & H).
        assert (number < mi_end (md_inner md)).
        { destruct NE as [?|NE]; [done|]. destruct (decide (mi_end (md_inner md) = number)) as [X|X]; [|lia]. exfalso. apply NE. by exists md. }
        destruct (by_block_intro m (number + 1) e (md_inner md) a M L A Bb) as (md2 & E2 & V2); [lia|].
        rewrite E' in E2. injection E2 as ->. by rewrite V2. }
    split.
    - rewrite <- V in G. by eapply gen_map_right.
    - exists nx. split; [done|]. cbn. rewrite V. by destruct (number =? 0).
  Qed.

  (** Synchronising inside an epoch keeps it right; synchronising renews the authorities in any case. *)
  Theorem C77_sync : forall (n : cnode B) count m', minv (cn_meta B n) -> extends (cn_meta B n) m' ->
    keys_right n -> auth_right n -> (forall x, cn_number B n < x <= cn_number B n + count -> ~ ends_epoch m' x) ->
    keys_right (sync_keys B n count m') /\ auth_right (sync_keys B n count m').
  Proof.
    intros n count m' M X R (md & E & A) NE.
    destruct (same_epoch (cn_meta B n) m' (cn_number B n) (cn_number B n + count) md M X ltac:(lia) E NE) as (md2 & E2 & V).
    split.
    - eapply right_same; [exact R|done|exact E|exact E2|done].
    - exists md2. unfold sync_keys. cbn. rewrite E2. done.
  Qed.
  Theorem C77_sync_authorities : forall (n : cnode B) count m' md,
    metadata_by_block m' (cn_number B n + count + 1) = Ok md -> auth_right (sync_keys B n count m').
  Proof. intros n count m' md E. exists md. unfold sync_keys. cbn. by rewrite E. Qed.

  (* ---------------------------------------------------------------------- *)
  (** ** C77: whole histories *)

  (** A history in which the contract only grows, no synchronisation passes the end of an epoch and no restart happens on one. *)
  Fixpoint calm (n : cnode B) (l : list cevent) : Prop :=
    match l with
    | [] => True
    | e :: r =>
        match e with
        | CCommit m' => extends (cn_meta B n) m'
        | CSync c m' => extends (cn_meta B n) m' /\ forall x, cn_number B n < x <= cn_number B n + c -> ~ ends_epoch m' x
        | CRestart => cn_number B n = 0 \/ ~ ends_epoch (cn_meta B n) (cn_number B n)
        end /\ match cstep B n e with Ok n' => calm n' r | _ => True end
    end.

  Theorem C77_history : forall evs0 m0 h0 n0 l (n : cnode B), mtrace evs0 m0 -> (h0 = 0 \/ ~ ends_epoch m0 h0) ->
    boot B m0 h0 = Ok n0 -> calm n0 l -> crun B n0 l = Ok n -> keys_right n /\ auth_right n.
  Proof.
    intros evs0 m0 h0 n0 l n T H0 BT. apply mtrace_inv in T as M.
    destruct (C77_boot _ _ _ M H0 BT) as (_ & <- & R & A). clear BT T H0. revert n0 M R A.
    induction l as [|e l IH]; cbn; intros n0 M R A; [intros _ E; by injection E as <-|]. intros [Q C] E.
    destruct (cstep B n0 e) as [n1| |] eqn:ST; try done. destruct e as [m'|c m'|]; cbn in ST.
    - destruct (C77_commit _ _ _ M Q R A ST) as (_ & EM & R1 & A1). apply (IH n1); try done.
      rewrite EM. by destruct (extends_keeps _ _ M Q).
    - destruct Q as [Q NE]. injection ST as <-. destruct (C77_sync _ _ _ M Q R A NE) as [R1 A1].
      apply (IH (sync_keys B n0 c m')); try done. by destruct (extends_keeps _ _ M Q).
    - destruct (C77_boot _ _ _ M Q ST) as (_ & EM & R1 & A1). apply (IH n1); try done. by rewrite EM.
  Qed.

  (* ---------------------------------------------------------------------- *)
  (** ** C77: aggregates *)

  Context {signed : Sg B -> bytes -> K B -> Prop} {inf : K B -> Prop} (LAW : bls_ok B signed inf).

  Lemma fold_signed (h : bytes) : forall ks ss s k, signed s h k -> Forall2 (fun s k => signed s h k) ss ks ->
    signed (fold_left (sadd B) ss s) h (fold_left (kadd B) ks k).
  Proof.
    induction ks as [|k' ks IH]; intros ss s k H F; apply Forall2_cons_inv_r in F || apply Forall2_nil_inv_r in F.
    - by subst.
    - destruct F as (s' & ss' & H' & F & ->). cbn. apply IH; [|done]. by apply (ok_add _ _ _ LAW).
  Qed.

  Lemma kadd_fold ks : forall a b, fold_left (kadd B) ks (kadd B a b) = kadd B a (fold_left (kadd B) ks b).
  Proof. induction ks as [|k ks IH]; intros a b; cbn; [done|]. by rewrite <- (ok_assoc _ _ _ LAW), IH. Qed.

  Lemma fold_perm ks ks' : ks ≡ₚ ks' -> forall a, fold_left (kadd B) ks a = fold_left (kadd B) ks' a.
  Proof.
    induction 1 as [|x l l' P IH|x y l|l1 l2 l3 P1 IH1 P2 IH2]; intros a; cbn; [done|by apply IH| |by rewrite IH1].
    f_equal. by rewrite <- !(ok_assoc _ _ _ LAW), (ok_comm _ _ _ LAW y x).
  Qed.
  (** the aggregate key does not depend on the order *)
  Lemma kagg_perm ks ks' : ks ≡ₚ ks' -> kagg B ks = kagg B ks'.
  Proof.
    induction 1 as [|x l l' P IH|x y l|l1 l2 l3 P1 IH1 P2 IH2]; cbn; [done|by rewrite (fold_perm _ _ P)| |congruence].
    by rewrite (ok_comm _ _ _ LAW y x).
  Qed.

  Lemma parse_sigs_spec (m : gmap bytes (K B)) hash : forall sigs voters,
    Forall2 (fun sg v => verify_signature B m sg hash v = true) sigs voters ->
    exists ss ks, parse_sigs B m sigs voters = Some ss /\ voter_keys B m voters = Some ks /\ length ss = length voters /\
      Forall2 (fun s k => signed s hash k) ss ks.
  Proof.
    intros sigs voters. revert sigs. induction voters as [|v voters IH]; intros sigs F.
    - apply Forall2_nil_inv_r in F as ->. exists [], []. cbn. repeat split; constructor.
    - apply Forall2_cons_inv_r in F as (sg & sigs' & V & F & ->). destruct (IH _ F) as (ss & ks & P1 & P2 & P3 & P4).
      unfold verify_signature in V. destruct (len hash =? 32); [cbn [negb] in V|done].
      destruct (m !! v) as [k|] eqn:EK; [|done]. destruct (sig_of B sg) as [x|] eqn:ES; [|done].
      exists (x :: ss), (k :: ks). cbn. rewrite ES, EK, P1, P2, P3. repeat split. constructor; [|done].
      apply (ok_verify _ _ _ LAW) in V as [V _]. exact V.
  Qed.

  Lemma voter_keys_perm (m : gmap bytes (K B)) vs vs' : vs ≡ₚ vs' -> forall ks, voter_keys B m vs = Some ks ->
    exists ks', voter_keys B m vs' = Some ks' /\ ks ≡ₚ ks'.
  Proof.
    induction 1 as [|x l l' P IH|x y l|l1 l2 l3 P1 IH1 P2 IH2]; cbn; intros ks E.
    - injection E as <-. by exists [].
    - destruct (m !! x) as [k|]; [|done]. destruct (voter_keys B m l) as [q|] eqn:Q; [|done]. injection E as <-.
      destruct (IH _ eq_refl) as (q' & -> & PP). exists (k :: q'). split; [done|by constructor].
    - destruct (m !! y) as [ky|]; [|done]. destruct (m !! x) as [kx|]; [|done].
      destruct (voter_keys B m l) as [q|] eqn:Q; [|done]. injection E as <-. exists (kx :: ky :: q). split; [done|]. constructor.
    - destruct (IH1 _ E) as (k1 & E1 & PA). destruct (IH2 _ E1) as (k2 & E2 & PB). exists k2. split; [done|]. by etrans.
  Qed.

  (** Votes that count one by one can be put together, and the result verifies whatever order the voters are listed in
      (unless the keys add up to the point at infinity). *)
  Theorem C77_aggregate : forall (m : gmap bytes (K B)) hash sigs voters ks, voters <> [] ->
    Forall2 (fun sg v => verify_signature B m sg hash v = true) sigs voters ->
    voter_keys B m voters = Some ks -> (forall k, kagg B ks = Some k -> ~ inf k) ->
    exists a, aggregate_signatures B m sigs voters = Some a /\
      forall voters', voters' ≡ₚ voters -> verify_aggregated B m a hash voters' = true.
  Proof.
    intros m hash sigs voters ks NE F EK NI. destruct (parse_sigs_spec _ _ _ _ F) as (ss & ks' & P1 & P2 & P3 & P4).
    rewrite EK in P2. injection P2 as <-.
    assert (LH : len hash = 32).
    { destruct voters as [|v vs]; [done|]. apply Forall2_cons_inv_r in F as (sg & ? & V & _). unfold verify_signature in V.
      by destruct (N.eqb_spec (len hash) 32). }
    destruct ss as [|s ss]; [by destruct voters|]. apply Forall2_cons_inv_l in P4 as (k & kr & S1 & SR & ->).
    exists (sig_bytes B (fold_left (sadd B) ss s)). split.
    - unfold aggregate_signatures. rewrite (Forall2_length _ _ _ F), Nat.eqb_refl, P1. done.
    - intros voters' PV. symmetry in PV. destruct (voter_keys_perm _ _ _ PV _ EK) as (ks' & E' & PK).
      unfold verify_aggregated, inner_verify. rewrite E', <- (kagg_perm _ _ PK). cbn [kagg].
      rewrite (ok_sig _ _ _ LAW), LH. cbn [N.eqb Pos.eqb]. apply (ok_verify _ _ _ LAW). split; [by apply fold_signed|].
      by apply NI.
  Qed.

  (** the three fields of a validator that the proof check uses *)
  Definition cv (v : validator) : ConsensusModel.validator := ConsensusModel.Validator (v_pub v) (v_bls v) (v_weight v).
  Lemma signer_keys_spec (vs : list validator) (voters : list bytes) (m : gmap bytes (K B)) : List.NoDup (map v_pub vs) ->
    (forall v, v ∈ vs -> exists k, key_of B (v_bls v) = Some k /\ m !! v_pub v = Some k) ->
    exists ks, parse_keys B (ConsensusModel.signer_keys (map cv vs) voters) = Some ks /\
      voter_keys B m (map v_pub (filter (fun v => v_pub v ∈ voters) vs)) = Some ks.
  Proof.
    intros ND. unfold ConsensusModel.signer_keys. induction vs as [|v vs IH]; intros H.
    - by exists [].
    - cbn [map] in ND. apply List.NoDup_cons_iff in ND as [_ ND]. destruct IH as (ks & P1 & P2); [done| |].
      { intros w W. apply H. by right. }
      destruct (H v) as (k & K1 & K2); [left|]. cbn [map]. rewrite !filter_cons. cbn [cv ConsensusModel.v_pub]. destruct (decide (v_pub v ∈ voters)).
      + exists (k :: ks). cbn. by rewrite K1, K2, P1, P2.
      + by exists ks.
  Qed.

  (** The same signature passes the check that is made on the proof in a block, where the keys are taken from the
      validator list in its own order. *)
  Theorem C77_proof : forall (vs : list validator) m hash sigs (voters : list bytes) ks, voters <> [] -> List.NoDup (map v_pub vs) -> NoDup voters ->
    generate_new_crypto_map B vs = Some m ->
    Forall2 (fun sg v => verify_signature B m sg hash v = true) sigs voters ->
    voter_keys B m voters = Some ks -> (forall k, kagg B ks = Some k -> ~ inf k) ->
    exists a, aggregate_signatures B m sigs voters = Some a /\
      verify_proof_signature B hash a (ConsensusModel.signer_keys (map cv vs) voters) = true.
  Proof.
    intros vs m hash sigs voters ks NE ND NV G F EK NI. destruct (C77_aggregate _ _ _ _ _ NE F EK NI) as (a & A1 & A2).
    exists a. split; [done|]. destruct (gen_map_spec _ _ _ G) as [GK GM].
    assert (SPLIT : forall v, v ∈ vs -> exists k, key_of B (v_bls v) = Some k /\ m !! v_pub v = Some k).
    { intros v W. destruct (GK _ W) as [k K1]. exists k. split; [done|]. apply GM. left.
      apply elem_of_list_split in W as (l1 & l2 & ->). exists l1, v, l2. split; [done|]. split; [done|]. split; [done|].
      apply Forall_forall. intros w W E. rewrite map_app in ND. cbn [map] in ND. apply List.NoDup_remove_2 in ND. apply ND.
      rewrite in_app_iff. right. rewrite <- E. apply in_map. by apply elem_of_list_In. }
    destruct (signer_keys_spec vs voters m ND SPLIT) as (ks' & P1 & P2).
    assert (PV : map v_pub (filter (fun v => v_pub v ∈ voters) vs) ≡ₚ voters).
    { apply NoDup_Permutation.
      - clear -ND. induction vs as [|v vs IH]; [constructor|]. cbn [map] in ND. apply List.NoDup_cons_iff in ND as [N1 ND].
        rewrite filter_cons. destruct (decide (v_pub v ∈ voters)); [|by apply IH]. cbn. constructor; [|by apply IH].
        intros X. apply N1. apply elem_of_list_In in X. apply in_map_iff in X as (w & <- & W). apply in_map.
        apply elem_of_list_In in W. apply elem_of_list_filter in W as [_ W]. by apply elem_of_list_In.
      - done.
      - intros p. rewrite elem_of_list_In, in_map_iff. split.
        + intros (v & <- & W). apply elem_of_list_In, elem_of_list_filter in W as [W _]. done.
        + intros W. assert (exists k, m !! p = Some k) as [k K1].
          { clear -F W. apply elem_of_list_lookup in W as (j & J). destruct (Forall2_lookup_r _ _ _ _ _ F J) as (sg & _ & V).
            unfold verify_signature in V. destruct (len hash =? 32); [cbn [negb] in V|done]. destruct (m !! p) as [k|]; [by eauto|done]. }
          apply GM in K1 as [(l1 & v & l2 & -> & <- & _)|[_ K1]]; [|by rewrite lookup_empty in K1].
          exists v. split; [done|]. apply elem_of_list_In, elem_of_list_filter. split; [done|]. apply elem_of_app. right. left. }
    specialize (A2 _ PV). unfold verify_aggregated in A2. rewrite P2 in A2. unfold verify_proof_signature. by rewrite P1.
  Qed.

  (** A validator that may register any key can sign for all the others: with the key [pub x - (sum of the other keys)] one
      secret makes signatures that pass for the whole list. *)
  Theorem C77_rogue_key : forall (sub : K B -> K B -> K B) x, (forall b, kadd B b (sub (pub B x) b) = pub B x) -> ~ inf (pub B x) ->
    forall (m : gmap bytes (K B)) others ks p, others <> [] -> p ∉ others -> voter_keys B m others = Some ks ->
    exists k, forall hash sg, sign B x hash = Some sg -> verify_aggregated B (<[p := k]> m) sg hash (others ++ [p]) = true.
  Proof.
    intros sub x HS NI m others ks p NE NP EK.
    assert (L : forall l q k', p ∉ l -> voter_keys B m l = Some q -> voter_keys B (<[p := k']> m) (l ++ [p]) = Some (q ++ [k'])).
    { induction l as [|v l IH]; cbn; intros q k' Np E.
      - injection E as <-. by rewrite lookup_insert.
      - apply not_elem_of_cons in Np as [N1 N2]. rewrite lookup_insert_ne by done. destruct (m !! v) as [k0|]; [|done].
        destruct (voter_keys B m l) as [q0|]; [|done]. injection E as <-. by rewrite (IH _ k' N2 eq_refl). }
    destruct ks as [|k0 ks].
    { destruct others as [|o os]; [done|]. cbn in EK. destruct (m !! o); [|done]. by destruct (voter_keys B m os). }
    set (sum := fold_left (kadd B) ks k0). exists (sub (pub B x) sum). intros hash sg SG.
    unfold verify_aggregated. rewrite (L _ _ _ NP EK). unfold inner_verify. cbn [kagg app].
    rewrite fold_left_app. cbn [fold_left]. fold sum. rewrite HS.
    unfold sign in SG. destruct (len hash =? 32); [|done]. injection SG as <-. rewrite (ok_sig _ _ _ LAW).
    apply (ok_verify _ _ _ LAW). split; [apply (ok_sign _ _ _ LAW)|done].
  Qed.
End props.

(** The metadata contract looks at no key. *)
Theorem C77_any_key_accepted : forall hf m md m' vs, append_metadata hf m md = Ok m' ->
  let i := md_inner md in
  exists m'', append_metadata hf m (Metadata_ (Inner_ (mi_start i) (mi_end i) (mi_epoch i) vs (mi_counter i)) (md_config md)) = Ok m''.
Proof.
  intros hf m md m' vs E. cbn zeta. unfold append_metadata in *. cbn [md_inner mi_epoch mi_start mi_end mi_verifiers md_config].
  destruct ((_ && _) || _); [done|]. destruct (_ =? U64_MAX); [done|]. destruct (negb _ && _); [done|].
  destruct (append_endpoint _ _); [by eexists|done].
Qed.

(** ** C77: the authorities of a past height *)
(** get_authority_list answers with the validators of the height before the one asked for. *)
Theorem C77_authority_list : forall evs m next cur old, mtrace evs m -> next <> 0 ->
  metadata_by_block m next = Ok cur -> metadata_by_block m (next - 1) = Ok old ->
  authority_list m next = Ok (mi_verifiers (md_inner old)).
Proof.
  intros evs m next cur old T NZ E O. apply mtrace_inv in T as M. unfold authority_list.
  rewrite (proj2 (N.eqb_neq next 0) NZ), E.
  destruct ((mi_start (md_inner cur) <=? next - 1) && (next - 1 <=? mi_end (md_inner cur))) eqn:C; [|by rewrite O].
  apply andb_true_iff in C as [C1 C2]. apply N.leb_le in C1, C2. f_equal. f_equal.
  destruct (by_block_inv m next cur M NZ E) as (e & i & a & _ & L & <- & A & Bb & H).
  pose proof (mi_ent _ M _ _ L) as (EP & _ & ST).
  destruct (decide (next = 1)) as [->|N1].
  - unfold metadata_by_block in O. change (1 - 1 =? 0) with true in O. cbn iota in O. unfold get_metadata, get_metadata_inner in O.
    destruct (mt_inner m !! 0) as [i0|] eqn:L0; [|done]. destruct (get_consensus_config m); try done. injection O as <-. cbn.
    assert (e = 0) as ->; [|congruence]. destruct (decide (e = 0)) as [?|Ne]; [done|]. exfalso.
    destruct (ST Ne) as (y & Y1 & Y2). lia.
  - destruct (by_block_inv m (next - 1) old M ltac:(lia) O) as (e' & i' & a' & _ & L' & <- & A' & Bb' & H').
    assert (e = e') as <-; [|congruence].
    assert (a < next - 1).
    { destruct (decide (e = 0)) as [->|Ne]; [pose proof (mi_zero _ M) as Z; change (N.to_nat 0) with 0%nat in A; rewrite Z in A; injection A as <-; lia|].
      destruct (ST Ne) as (y & Y1 & Y2). rewrite Y1 in A. injection A as ->. lia. }
    pose proof (seg_window_unique _ (next - 1) _ _ _ _ _ _ (mi_inc _ M) A Bb ltac:(lia) A' Bb' H'). lia.
Qed.

(** ** C77: transport *)
Theorem C77_transport : forall b, wf_bytes b -> len b < 2 ^ 64 -> receive_message (wire_message b) = Some b.
Proof. intros b W L. by apply dec_value_str0. Qed.
(** The types' own encode is not what their decode reads. *)
Theorem C77_encode_refuted : exists b, wf_bytes b /\ receive_message (message_encode b) <> Some b.
Proof. exists [0xc0]. split; [by repeat constructor|]. vm_compute. discriminate. Qed.

(* ------------------------------------------------------------------------ *)
(** * A small instance of the laws: scalars modulo 251 *)
Definition q : N := 251.
Definition hv (h : bytes) : N := 1 + be_val h mod 250.
Definition one_byte (b : bytes) : option N := match b with [x] => Some x | _ => None end.
Definition toy : bls := Bls N N N one_byte one_byte (fun s => [s])
  (fun a b => (a + b) mod q) (fun a b => (a + b) mod q)
  (fun s h k => (s mod q =? (k * hv h) mod q) && negb (k mod q =? 0))
  (fun x => x mod q) (fun x h => (x * hv h) mod q).
Definition toy_signed (s : N) (h : bytes) (k : N) : Prop := s mod q = (k * hv h) mod q.
Definition toy_inf (k : N) : Prop := k mod q = 0.
Lemma toy_ok : bls_ok toy toy_signed toy_inf.
Proof.
  assert (Q : q <> 0) by done. split; cbn.
  - intros a b c. rewrite N.add_mod_idemp_r, N.add_mod_idemp_l by done. f_equal. lia.
  - intros a b. f_equal. lia.
  - done.
  - intros x h. unfold toy_signed. rewrite N.mod_mod, N.mul_mod_idemp_l by done. done.
  - intros s s' h k k' H H'. unfold toy_signed in *. rewrite N.mod_mod, N.mul_mod_idemp_l, N.mul_add_distr_r by done.
    rewrite N.add_mod, H, H', <- N.add_mod by done. done.
  - intros s h k. rewrite andb_true_iff, N.eqb_eq, negb_true_iff, N.eqb_neq. done.
Qed.

(** Two epochs: blocks 1 and 2 with validators 1 and 2, blocks 3 to 10 with validators 1 and 3.  The secret of validator
    [i] is [10 * i]. *)
Definition ex_val (i k : N) : validator := Val_ [k] (repeat i 33) (repeat i 20) 1 1.
Definition ex_epoch (e st en : N) (vs : list validator) : metadata :=
  Metadata_ (Inner_ st en e vs []) (Config_ (Config0_ 30000000 3000 15 10 10 3 100 1024) 0x6000).
Definition ex_ops : list mevent :=
  [EvAppend 0 (ex_epoch 0 1 2 [ex_val 1 10; ex_val 2 20]); EvAppend 0 (ex_epoch 1 3 10 [ex_val 1 10; ex_val 3 30])].
Definition mt : meta := match mrun meta0 ex_ops with Ok m => m | _ => meta0 end.
Definition ex_hash : bytes := repeat 7 32.
Definition vote (i : N) : bytes := match sign toy (10 * i) ex_hash with Some s => s | None => [] end.

Lemma mt_trace : mtrace ex_ops mt.
Proof.
  apply (mrun_trace [] meta0); [constructor| |vm_compute; reflexivity].
  unfold ex_ops. repeat (apply Forall_cons; split; [vm_compute; discriminate|]). constructor.
Qed.
Lemma extends_refl m : extends m m. Proof. by exists []. Qed.
Definition run_of (l : list cevent) : outcome (cnode toy) :=
  match boot toy mt 0 with Ok n => crun toy n l | o => o end.
Definition state (l : list cevent) : cnode toy := match run_of l with Ok n => n | _ => CNode toy 0 mt ∅ [] end.
Definition is_ok {A} (o : outcome A) : bool := match o with Ok _ => true | _ => false end.
Lemma state_ok l : is_ok (run_of l) = true -> run_of l = Ok (state l).
Proof. unfold state. by destruct (run_of l). Qed.

(** what a node says about the vote of validator [i] for the next height *)
Definition takes (n : cnode toy) (i : N) : bool := verify_signature toy (cn_keys toy n) (vote i) ex_hash (repeat i 33).

Lemma calm_commits l : forall n : cnode toy, cn_meta toy n = mt -> Forall (fun e => e = CCommit mt) l -> calm n l.
Proof.
  induction l as [|e l IH]; intros n E F; cbn [calm]; [done|]. apply Forall_cons in F as [-> F]. split; [rewrite E; apply extends_refl|].
  destruct (cstep toy n (CCommit mt)) as [n'| |] eqn:ST; try done. apply IH; [|done]. cbn [cstep] in ST. unfold commit_keys in ST.
  match type of ST with match ?t with _ => _ end = _ => destruct t as [k| |] end; try done.
  destruct (metadata_by_block mt (cn_number toy n + 1 + 1)); try done. by injection ST as <-.
Qed.
Lemma boot_meta m h (n : cnode toy) : boot toy m h = Ok n -> cn_meta toy n = m.
Proof.
  unfold boot. destruct (metadata_by_block m h); try done. destruct (generate_new_crypto_map _ _); try done.
  destruct (metadata_by_block m (h + 1)); try done. by intros [= <-].
Qed.

(** The map is right after commits only: at height 3, validators 1 and 3 count, validator 2 does not. *)
Example C77_example : exists n0, boot toy mt 0 = Ok n0 /\ calm n0 [CCommit mt; CCommit mt] /\
  crun toy n0 [CCommit mt; CCommit mt] = Ok (state [CCommit mt; CCommit mt]) /\
  cn_number toy (state [CCommit mt; CCommit mt]) = 2 /\ keys_right (state [CCommit mt; CCommit mt]) /\
  map (takes (state [CCommit mt; CCommit mt])) [1; 2; 3] = [true; false; true] /\
  map (takes (state [CCommit mt])) [1; 2; 3] = [true; true; false].
Proof.
  assert (R : run_of [CCommit mt; CCommit mt] = Ok (state [CCommit mt; CCommit mt])) by (apply state_ok; vm_compute; reflexivity).
  unfold run_of in R. destruct (boot toy mt 0) as [n0| |] eqn:BT; try done. exists n0.
  assert (C : calm n0 [CCommit mt; CCommit mt]) by (apply calm_commits; [by eapply boot_meta|by repeat constructor]).
  split; [done|]. split; [done|]. split; [done|]. split; [vm_compute; reflexivity|]. split.
  - exact (proj1 (C77_history ex_ops mt 0 n0 _ _ mt_trace (or_introl eq_refl) BT C R)).
  - split; vm_compute; reflexivity.
Qed.

(** a vote of the validator of the next height with public key [p], made with the secret of its registered key *)
Definition secret_vote (n : cnode toy) (p sg h : bytes) (x : N) : Prop :=
  sign toy x h = Some sg /\ in_force (cn_meta toy n) (cn_number toy n + 1) p [pub toy x].

(** Synchronising past the end of an epoch leaves the old keys: at height 3 the new validator's vote is refused and
    the vote of the one that left is taken. *)
Theorem C77_sync_refuted : exists n, run_of [CCommit mt; CSync 1 mt] = Ok n /\ auth_right n /\ cn_number toy n = 2 /\
  (secret_vote n (repeat 3 33) (vote 3) ex_hash 30 /\ verify_signature toy (cn_keys toy n) (vote 3) ex_hash (repeat 3 33) = false) /\
  (~ (exists b, in_force (cn_meta toy n) (cn_number toy n + 1) (repeat 2 33) b) /\
   verify_signature toy (cn_keys toy n) (vote 2) ex_hash (repeat 2 33) = true).
Proof.
  exists (state [CCommit mt; CSync 1 mt]). split; [apply state_ok; vm_compute; reflexivity|].
  split; [eexists; split; vm_compute; reflexivity|]. split; [vm_compute; reflexivity|]. split; split.
  - split; [vm_compute; reflexivity|]. eexists _, [ex_val 1 10], (ex_val 3 30), []. split; [vm_compute; reflexivity|].
    split; [reflexivity|]. split; [reflexivity|]. split; [reflexivity|]. constructor.
  - vm_compute. reflexivity.
  - intros (b & md & l1 & v & l2 & E & V & P & _). vm_compute in E. injection E as <-. cbn in V.
    destruct l1 as [|x [|y l1]]; cbn in V; injection V; intros; subst; try discriminate. by destruct l1.
  - vm_compute. reflexivity.
Qed.

(** So does a restart on the last block of an epoch; the authority list is the old one too. *)
Theorem C77_restart_refuted : exists n, run_of [CCommit mt; CCommit mt; CRestart] = Ok n /\ ~ auth_right n /\ cn_number toy n = 2 /\
  (secret_vote n (repeat 3 33) (vote 3) ex_hash 30 /\ verify_signature toy (cn_keys toy n) (vote 3) ex_hash (repeat 3 33) = false) /\
  (~ (exists b, in_force (cn_meta toy n) (cn_number toy n + 1) (repeat 2 33) b) /\
   verify_signature toy (cn_keys toy n) (vote 2) ex_hash (repeat 2 33) = true).
Proof.
  exists (state [CCommit mt; CCommit mt; CRestart]). split; [apply state_ok; vm_compute; reflexivity|]. split.
  { intros (md & E & A). vm_compute in E. injection E as <-. vm_compute in A. discriminate. }
  split; [vm_compute; reflexivity|]. split; split.
  - split; [vm_compute; reflexivity|]. eexists _, [ex_val 1 10], (ex_val 3 30), []. split; [vm_compute; reflexivity|].
    split; [reflexivity|]. split; [reflexivity|]. split; [reflexivity|]. constructor.
  - vm_compute. reflexivity.
  - intros (b & md & l1 & v & l2 & E & V & P & _). vm_compute in E. injection E as <-. cbn in V.
    destruct l1 as [|x [|y l1]]; cbn in V; injection V; intros; subst; try discriminate. by destruct l1.
  - vm_compute. reflexivity.
Qed.

(** One secret signs for a list whose other members never signed: validators 1 and 2 with keys 10 and 20, and a third one
    that registered [100 - 30]; its secret is 100 and not 70. *)
Definition map_of (l : list validator) : gmap bytes (K toy) := match generate_new_crypto_map toy l with Some m => m | None => ∅ end.
Lemma map_of_ok l : bool_decide (is_Some (generate_new_crypto_map toy l)) = true -> generate_new_crypto_map toy l = Some (map_of l).
Proof. unfold map_of. destruct (generate_new_crypto_map toy l); [done|]. by intros ?%bool_decide_eq_true%is_Some_None. Qed.
Theorem C77_forged_refuted : exists m sg,
  generate_new_crypto_map toy [ex_val 1 10; ex_val 2 20; ex_val 4 70] = Some m /\ sign toy 100 ex_hash = Some sg /\
  verify_aggregated toy m sg ex_hash [repeat 1 33; repeat 2 33; repeat 4 33] = true /\
  Forall (fun p => verify_signature toy m sg ex_hash p = false) [repeat 1 33; repeat 2 33; repeat 4 33].
Proof.
  exists (map_of [ex_val 1 10; ex_val 2 20; ex_val 4 70]), (match sign toy 100 ex_hash with Some s => s | None => [] end).
  split; [apply map_of_ok; vm_compute; reflexivity|]. split; [vm_compute; reflexivity|]. split; [vm_compute; reflexivity|].
  repeat (apply Forall_cons; split; [vm_compute; reflexivity|]). constructor.
Qed.

(** Two votes put together at height 3, in both orders. *)
Example C77_aggregate_example : exists m a,
  generate_new_crypto_map toy [ex_val 1 10; ex_val 3 30] = Some m /\
  Forall2 (fun sg v => verify_signature toy m sg ex_hash v = true) [vote 3; vote 1] [repeat 3 33; repeat 1 33] /\
  aggregate_signatures toy m [vote 3; vote 1] [repeat 3 33; repeat 1 33] = Some a /\
  verify_aggregated toy m a ex_hash [repeat 1 33; repeat 3 33] = true /\
  verify_proof_signature toy ex_hash a (ConsensusModel.signer_keys (map cv [ex_val 1 10; ex_val 3 30]) [repeat 3 33; repeat 1 33]) = true.
Proof.
  exists (map_of [ex_val 1 10; ex_val 3 30]). eexists. split; [apply map_of_ok; vm_compute; reflexivity|].
  split; [repeat (apply Forall2_cons; split || constructor; [vm_compute; reflexivity|]); constructor|].
  split; [vm_compute; reflexivity|]. split; vm_compute; reflexivity.
Qed.

Print Assumptions C77_vote.
Print Assumptions C77_commit.
Print Assumptions C77_commit_epoch_end.
Print Assumptions C77_boot.
Print Assumptions C77_sync.
Print Assumptions C77_sync_authorities.
Print Assumptions C77_history.
Print Assumptions C77_aggregate.
Print Assumptions C77_proof.
Print Assumptions C77_rogue_key.
Print Assumptions C77_any_key_accepted.
Print Assumptions C77_authority_list.
Print Assumptions C77_transport.
Print Assumptions C77_encode_refuted.
Print Assumptions C77_sync_refuted.
Print Assumptions C77_restart_refuted.
Print Assumptions C77_forged_refuted.
