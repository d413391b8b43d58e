(** C108: the keys that generate-keypair prints are the keys on the disk, and a node that is given them acts with them. *)
From Verif Require Import Bytes BytesProofs Rlp TxModel MetaModel CryptoModel VersionModel VersionProps KeyModel.
From stdpp Require Import base gmap list.
From Coq Require Import Lia.
Local Open Scope N_scope.

(* ---------------------------------------------------------------------- *)
(** * Spec *)

(** [p] is the file of key [i] of kind [kind] ("bls" or "net") in the directory [dir]. *)
Definition key_path (dir : bytes) (kind : bytes) (i : N) (p : bytes) : Prop :=
  exists d w, (d = dir \/ d = dir ++ [47]) /\ (last d = None \/ last d = Some 47) /\ (last dir = None \/ last dir = Some 47 -> d = dir) /\
    numeral i w /\ p = d ++ kind ++ 95 :: w ++ [46; 107; 101; 121].
Definition BLS : bytes := [98; 108; 115].
Definition NET : bytes := [110; 101; 116].

(** What the libraries promise: keys have 32 bytes; public keys are read back; a signature verifies under the public key of its secret and no
    other (BLS signatures are unique). *)
Record lib_ok (L : keylib) : Prop := {
  net_len : forall b p, net_pub L b = Some p -> len b = 32 /\ len p = 33;
  net_unc : forall b p, net_pub L b = Some p -> exists u, uncompress L p = Some u;
  sk_len : forall b x, sk_of L b = Some x -> len b = 32;
  pub_read : forall b x, sk_of L b = Some x -> key_of (BL L) (key_bytes L (pub (BL L) x)) = Some (pub (BL L) x);
  sig_read : forall b x h, sk_of L b = Some x -> sig_of (BL L) (sig_bytes (BL L) (sign1 (BL L) x h)) = Some (sign1 (BL L) x h);
  sig_ok : forall b x h k, sk_of L b = Some x -> verify1 (BL L) (sign1 (BL L) x h) h k = true <-> k = pub (BL L) x }.

(* ---------------------------------------------------------------------- *)
(** * Paths *)

Lemma numeral_eq n m w : numeral n w -> numeral m w -> n = m.
Proof. intros (_ & _ & _ & <-) (_ & _ & _ & <-). reflexivity. Qed.
Lemma show_inj n m : show_num n = show_num m -> n = m.
Proof. intros E. apply (numeral_eq n m (show_num n)); [apply show_num_numeral|]. rewrite E. apply show_num_numeral. Qed.

Lemma numeral_unique n w w' : numeral n w -> numeral n w' -> w = w'.
Proof.
  intros A B. pose proof (cmp_numeral n n w w' A B) as E. rewrite N.compare_refl in E. unfold then_cmp in E.
  destruct (len w ?= len w'); try discriminate E. by apply cmp_text_eq.
Qed.
Definition base (dir : bytes) : bytes := if match last dir with Some c => negb (c =? 47) | None => false end then dir ++ [47] else dir.
Lemma push_base dir c f : c <> 47 -> push dir (c :: f) = base dir ++ c :: f.
Proof.
  intros C. unfold push, base. rewrite (proj2 (N.eqb_neq c 47) C).
  destruct (match last dir with Some c => negb (c =? 47) | None => false end); [|reflexivity]. by rewrite <- app_assoc.
Qed.
Lemma bls_push dir i : push dir (bls_name i) = base dir ++ BLS ++ 95 :: show_num i ++ [46; 107; 101; 121].
Proof. unfold bls_name. cbn [app]. by rewrite push_base. Qed.
Lemma net_push dir i : push dir (net_name i) = base dir ++ NET ++ 95 :: show_num i ++ [46; 107; 101; 121].
Proof. unfold net_name. cbn [app]. by rewrite push_base. Qed.
Lemma key_path_iff dir kind i p : key_path dir kind i p <-> p = base dir ++ kind ++ 95 :: show_num i ++ [46; 107; 101; 121].
Proof.
  assert (U : forall w, numeral i w -> w = show_num i).
  { intros w H. eapply numeral_unique; [exact H|apply show_num_numeral]. }
  unfold key_path, base. split.
  - intros (d & w & D & E & F & W & ->). rewrite (U w W). f_equal. destruct (last dir) as [c|] eqn:LD.
    + destruct (N.eqb_spec c 47) as [->|C]; cbn; [apply F; by right|]. destruct D as [->| ->]; [|reflexivity].
      rewrite LD in E. destruct E as [E|E]; [done|]. congruence.
    + apply F. by left.
  - intros ->. eexists _, (show_num i). split; [|split; [|split; [|split; [apply show_num_numeral|reflexivity]]]].
    + destruct (match last dir with Some c => negb (c =? 47) | None => false end); auto.
    + destruct (last dir) as [c|] eqn:LD; [|by left]. destruct (N.eqb_spec c 47) as [->|C]; cbn; [by right|]. right. by rewrite last_snoc.
    + intros [E|E]; by rewrite E.
Qed.
Lemma bls_path dir i p : key_path dir BLS i p <-> p = push dir (bls_name i).
Proof. by rewrite key_path_iff, bls_push. Qed.
Lemma net_path dir i p : key_path dir NET i p <-> p = push dir (net_name i).
Proof. by rewrite key_path_iff, net_push. Qed.
Lemma bls_inj dir i j : push dir (bls_name i) = push dir (bls_name j) -> i = j.
Proof. rewrite !bls_push. intros E. apply app_inv_head in E. cbn in E. injection E as E. apply app_inv_tail in E. by apply show_inj. Qed.
Lemma net_inj dir i j : push dir (net_name i) = push dir (net_name j) -> i = j.
Proof. rewrite !net_push. intros E. apply app_inv_head in E. cbn in E. injection E as E. apply app_inv_tail in E. by apply show_inj. Qed.
Lemma bls_net dir i j : push dir (bls_name i) <> push dir (net_name j).
Proof. rewrite bls_push, net_push. intros E. apply app_inv_head in E. cbn in E. discriminate E. Qed.

(* ---------------------------------------------------------------------- *)
(** * Keys on the disk *)
Section keys.
  Context (keccak : bytes -> bytes) (L : keylib).
  Notation bfile path i := (push path (bls_name i)).
  Notation nfile path i := (push path (net_name i)).

  Lemma from_keys_fields net bls i kp : from_private_keys keccak L net bls i = Some kp ->
    kp_index kp = i /\ kp_net kp = net /\ kp_bls kp = bls.
  Proof.
    unfold from_private_keys, obind. destruct (net_pub L net) as [p|]; [|done]. destruct (sk_of L bls); [|done]. destruct (address_of keccak L p); [|done].
    intros E. by injection E as <-.
  Qed.
  Lemma write_other fs p data w q : q <> p -> fst (write fs p data w) !! q = fs !! q.
  Proof. intros N. destruct w; cbn; [|done|]; by rewrite lookup_insert_ne. Qed.
  Lemma write_ok fs p data w fs' : write fs p data w = (fs', true) -> fs' = <[p := data]> fs.
  Proof. destruct w; cbn; intros E; by injection E as <-. Qed.
  Lemma write_self fs p data w : fst (write fs p data w) !! p = fs !! p \/ exists n, fst (write fs p data w) !! p = Some (firstn n data).
  Proof.
    destruct w; cbn; [right|by left|right].
    - exists (length data). by rewrite lookup_insert, firstn_all.
    - exists n. by rewrite lookup_insert.
  Qed.
  Lemma wpk_other fs path net bls i w1 w2 q : q <> bfile path i -> q <> nfile path i ->
    fst (write_private_keys fs path net bls i w1 w2) !! q = fs !! q.
  Proof.
    intros A B. unfold write_private_keys. destruct (write fs _ bls w1) as [fs1 ok] eqn:E.
    assert (X : fs1 !! q = fs !! q). { change fs1 with (fst (fs1, ok)). rewrite <- E. by apply write_other. }
    destruct ok; [|done]. by rewrite write_other.
  Qed.
  Lemma wpk_ok fs path net bls i w1 w2 fs' : write_private_keys fs path net bls i w1 w2 = (fs', true) ->
    fs' !! bfile path i = Some bls /\ fs' !! nfile path i = Some net.
  Proof.
    unfold write_private_keys. destruct (write fs _ bls w1) as [fs1 ok] eqn:E. destruct ok; [|done]. intros E2.
    apply write_ok in E, E2. subst. split; [|by rewrite lookup_insert].
    rewrite lookup_insert_ne by (intros X; symmetry in X; by apply bls_net in X). by rewrite lookup_insert.
  Qed.

  (** files of lower indices and other files are left alone *)
  Lemma loop_frame path rounds : forall i fs q, (forall j, i <= j -> q <> bfile path j /\ q <> nfile path j) ->
    fst (generate_loop keccak L path i rounds fs) !! q = fs !! q.
  Proof.
    induction rounds as [|r l IH]; intros i fs q H; cbn [generate_loop]; [done|].
    destruct (from_private_keys _ _ _ _ _) as [kp|]; [|done].
    destruct (write_private_keys fs path _ _ i _ _) as [fs1 ok] eqn:W.
    assert (X : fs1 !! q = fs !! q).
    { change fs1 with (fst (fs1, ok)). rewrite <- W. destruct (H i) as [A B]; [lia|]. by apply wpk_other. }
    destruct ok; [|done]. specialize (IH (i + 1) fs1 q). destruct (generate_loop _ _ _ _ l fs1) as [fs2 o]. cbn in *.
    rewrite IH; [done|]. intros j J. apply H. lia.
  Qed.
  Lemma lower_kept path i q : q = bfile path i \/ q = nfile path i -> forall j, i + 1 <= j -> q <> bfile path j /\ q <> nfile path j.
  Proof.
    intros [-> | ->] j J; split; intros E.
    - apply bls_inj in E. lia.
    - by apply bls_net in E.
    - symmetry in E. by apply bls_net in E.
    - apply net_inj in E. lia.
  Qed.

  Lemma loop_ok path rounds : forall i fs fs' kps, generate_loop keccak L path i rounds fs = (fs', Some kps) ->
    length kps = length rounds /\
    (forall j r, rounds !! j = Some r -> exists kp, kps !! j = Some kp /\
       from_private_keys keccak L (r_net r) (r_bls r) (i + N.of_nat j) = Some kp /\
       fs' !! bfile path (i + N.of_nat j) = Some (r_bls r) /\ fs' !! nfile path (i + N.of_nat j) = Some (r_net r)) /\
    (forall q, (forall j, (j < length rounds)%nat -> q <> bfile path (i + N.of_nat j) /\ q <> nfile path (i + N.of_nat j)) -> fs' !! q = fs !! q).
  Proof.
    induction rounds as [|r l IH]; intros i fs fs' kps; cbn [generate_loop].
    - intros E. injection E as <- <-. split; [done|]. split; [|done]. intros j r X. by destruct j.
    - destruct (from_private_keys _ _ _ _ _) as [kp|] eqn:F; [|done]. destruct (from_keys_fields _ _ _ _ F) as (_ & KN & KB).
      rewrite KN, KB. destruct (write_private_keys fs path _ _ i _ _) as [fs1 ok] eqn:W. destruct ok; [|done].
      destruct (generate_loop _ _ _ _ l fs1) as [fs2 o] eqn:G. intros E. injection E as <- E.
      destruct o as [k2|]; [|done]. injection E as <-. destruct (IH _ _ _ _ G) as (IL & IK & IF).
      destruct (wpk_ok _ _ _ _ _ _ _ _ W) as [WB WN].
      pose proof (loop_frame path l (i + 1) fs1) as FR. rewrite G in FR. cbn [fst] in FR.
      split; [cbn; lia|]. split.
      + intros [|j] r' X; cbn in X.
        * injection X as <-. exists kp. rewrite N.add_0_r. split; [done|]. split; [done|]. split.
          -- rewrite FR; [done|]. apply lower_kept. by left.
          -- rewrite FR; [done|]. apply lower_kept. by right.
        * destruct (IK j r' X) as (kp' & A). exists kp'. replace (i + N.of_nat (S j)) with (i + 1 + N.of_nat j) by lia. exact A.
      + intros q H. rewrite IF.
        * change fs1 with (fst (fs1, true)). rewrite <- W. destruct (H 0%nat) as [A B]; [cbn; lia|]. rewrite N.add_0_r in A, B. by apply wpk_other.
        * intros j J. specialize (H (S j)). replace (i + N.of_nat (S j)) with (i + 1 + N.of_nat j) in H by lia. apply H. cbn; lia.
  Qed.

  Lemma loop_err path rounds : forall i fs fs', generate_loop keccak L path i rounds fs = (fs', None) ->
    exists k r, rounds !! k = Some r /\
      (forall j r', (j < k)%nat -> rounds !! j = Some r' ->
         fs' !! bfile path (i + N.of_nat j) = Some (r_bls r') /\ fs' !! nfile path (i + N.of_nat j) = Some (r_net r')) /\
      (forall q, (forall j, (j <= k)%nat -> q <> bfile path (i + N.of_nat j) /\ q <> nfile path (i + N.of_nat j)) -> fs' !! q = fs !! q) /\
      (fs' !! bfile path (i + N.of_nat k) = fs !! bfile path (i + N.of_nat k) \/
       exists n, fs' !! bfile path (i + N.of_nat k) = Some (firstn n (r_bls r))) /\
      (fs' !! nfile path (i + N.of_nat k) = fs !! nfile path (i + N.of_nat k) \/
       (fs' !! bfile path (i + N.of_nat k) = Some (r_bls r) /\ exists n, fs' !! nfile path (i + N.of_nat k) = Some (firstn n (r_net r)))).
  Proof.
    induction rounds as [|r l IH]; intros i fs fs'; cbn [generate_loop]; [done|].
    destruct (from_private_keys _ _ _ _ _) as [kp|] eqn:F.
    2: { intros E. injection E as <-. exists 0%nat, r. split; [done|]. split; [lia|]. split; [done|]. split; by left. }
    destruct (from_keys_fields _ _ _ _ F) as (_ & KN & KB). rewrite KN, KB.
    destruct (write_private_keys fs path _ _ i _ _) as [fs1 ok] eqn:W. destruct ok.
    - destruct (generate_loop _ _ _ _ l fs1) as [fs2 o] eqn:G. intros E. injection E as <- E.
      destruct o as [k2|]; [done|]. destruct (IH _ _ _ G) as (k & r0 & R & C & FRk & Bk & Nk).
      destruct (wpk_ok _ _ _ _ _ _ _ _ W) as [WB WN].
      pose proof (loop_frame path l (i + 1) fs1) as FR. rewrite G in FR. cbn [fst] in FR.
      assert (KE : i + 1 + N.of_nat k = i + N.of_nat (S k)) by lia. rewrite KE in *.
      assert (X : forall q, q <> bfile path i -> q <> nfile path i -> fs1 !! q = fs !! q).
      { intros q A B. change fs1 with (fst (fs1, true)). rewrite <- W. by apply wpk_other. }
      exists (S k), r0. split; [done|]. split; [|split; [|split]].
      + intros [|j] r' J Q; cbn in Q.
        * injection Q as <-. rewrite N.add_0_r. split; (rewrite FR; [done|]); apply lower_kept; [by left|by right].
        * replace (i + N.of_nat (S j)) with (i + 1 + N.of_nat j) by lia. apply C; [lia|done].
      + intros q H. rewrite FRk.
        * destruct (H 0%nat) as [A B]; [lia|]. rewrite N.add_0_r in A, B. by apply X.
        * intros j J. specialize (H (S j)). replace (i + N.of_nat (S j)) with (i + 1 + N.of_nat j) in H by lia. apply H. cbn; lia.
      + destruct Bk as [Bk|Bk]; [|by right]. left. rewrite Bk. apply X.
        * intros E2. apply bls_inj in E2. lia.
        * apply bls_net.
      + destruct Nk as [Nk|Nk]; [|by right]. left. rewrite Nk. apply X.
        * intros E2. symmetry in E2. by apply bls_net in E2.
        * intros E2. apply net_inj in E2. lia.
    - intros E. injection E as <-. exists 0%nat, r. rewrite N.add_0_r. split; [done|]. split; [lia|]. split.
      { intros q H. destruct (H 0%nat) as [A B]; [lia|]. rewrite N.add_0_r in A, B.
        change fs1 with (fst (fs1, false)). rewrite <- W. by apply wpk_other. }
      unfold write_private_keys in W. destruct (write fs (bfile path i) (r_bls r) (r_w1 r)) as [f ok] eqn:W1. destruct ok.
      + apply write_ok in W1. subst f.
        assert (BK : fs1 !! bfile path i = Some (r_bls r)).
        { change fs1 with (fst (fs1, false)). rewrite <- W. rewrite write_other by apply bls_net. by rewrite lookup_insert. }
        split; [right; exists (length (r_bls r)); by rewrite firstn_all|].
        destruct (write_self (<[bfile path i := r_bls r]> fs) (nfile path i) (r_net r) (r_w2 r)) as [Y|Y]; rewrite W in Y; cbn [fst] in Y.
        * left. rewrite Y. by rewrite lookup_insert_ne by apply bls_net.
        * by right.
      + injection W as <-. pose proof (write_self fs (bfile path i) (r_bls r) (r_w1 r)) as Y. rewrite W1 in Y. split; [exact Y|]. left.
        change f with (fst (f, false)). rewrite <- W1. apply write_other. intros E2. symmetry in E2. by apply bls_net in E2.
  Qed.

  (** C108: when the command succeeds, one pair was printed per key asked for, in order; the two files of each pair hold its two secrets;
      no other file has changed. *)
  Theorem C108_kept : forall path rounds fs fs' kps, generate keccak L path rounds fs = (fs', Some kps) ->
    length kps = length rounds /\
    (forall i r, rounds !! i = Some r -> exists kp, kps !! i = Some kp /\ kp_index kp = N.of_nat i /\ kp_bls kp = r_bls r /\ kp_net kp = r_net r /\
       (forall p, key_path path BLS (N.of_nat i) p -> fs' !! p = Some (kp_bls kp)) /\
       (forall p, key_path path NET (N.of_nat i) p -> fs' !! p = Some (kp_net kp))) /\
    (forall q, (forall i, (i < length rounds)%nat -> ~ key_path path BLS (N.of_nat i) q /\ ~ key_path path NET (N.of_nat i) q) -> fs' !! q = fs !! q).
  Proof.
    intros path rounds fs fs' kps G. destruct (loop_ok path rounds 0 fs fs' kps G) as (A & B & C). split; [done|]. split.
    - intros i r R. destruct (B i r R) as (kp & K & F & FB & FN). rewrite N.add_0_l in *. exists kp.
      destruct (from_keys_fields _ _ _ _ F) as (F1 & F2 & F3). split; [done|]. split; [done|]. split; [done|]. split; [done|]. split.
      + intros p P. apply bls_path in P. subst p. by rewrite F3.
      + intros p P. apply net_path in P. subst p. by rewrite F2.
    - intros q H. apply C. intros j J. rewrite N.add_0_l. destruct (H j J) as [X Y]. split; intros E; [apply X|apply Y].
      + by apply bls_path.
      + by apply net_path.
  Qed.

  (** A command that fails has a round at which it failed: the files of the rounds before it are complete, those after it are untouched, as is
      everything else; the files of the round itself hold what they held or a beginning of the new secret, the network key only after the BLS key
      is complete. *)
  Theorem C108_failed : forall path rounds fs fs', generate keccak L path rounds fs = (fs', None) ->
    exists k r, rounds !! k = Some r /\
      (forall i r', (i < k)%nat -> rounds !! i = Some r' ->
         (forall p, key_path path BLS (N.of_nat i) p -> fs' !! p = Some (r_bls r')) /\
         (forall p, key_path path NET (N.of_nat i) p -> fs' !! p = Some (r_net r'))) /\
      (forall q, (forall i, (i <= k)%nat -> ~ key_path path BLS (N.of_nat i) q /\ ~ key_path path NET (N.of_nat i) q) -> fs' !! q = fs !! q) /\
      (forall b n, key_path path BLS (N.of_nat k) b -> key_path path NET (N.of_nat k) n ->
         (fs' !! b = fs !! b \/ exists c, fs' !! b = Some (firstn c (r_bls r))) /\
         (fs' !! n = fs !! n \/ fs' !! b = Some (r_bls r) /\ exists c, fs' !! n = Some (firstn c (r_net r)))).
  Proof.
    intros path rounds fs fs' G. destruct (loop_err path rounds 0 fs fs' G) as (k & r & R & A & B & C & D). exists k, r.
    rewrite N.add_0_l in C, D. split; [done|]. split; [|split].
    - intros i r' I R'. destruct (A i r' I R') as [A1 A2]. rewrite N.add_0_l in A1, A2. split.
      + intros p P. apply bls_path in P. by subst p.
      + intros p P. apply net_path in P. by subst p.
    - intros q H. apply B. intros j J. rewrite N.add_0_l. destruct (H j J) as [X Y]. split; intros E; [apply X|apply Y].
      + by apply bls_path.
      + by apply net_path.
    - intros b n P Q. apply bls_path in P. apply net_path in Q. subst. done.
  Qed.

  (** Recovering from the two files of a printed pair prints it again, as number 0. *)
  Theorem C108_recover : forall path rounds fs fs' kps i kp b n, generate keccak L path rounds fs = (fs', Some kps) -> kps !! i = Some kp ->
    key_path path BLS (N.of_nat i) b -> key_path path NET (N.of_nat i) n ->
    recover keccak L fs' n b =
    Some (Keypair 0 (kp_net kp) (kp_public kp) (kp_address kp) (kp_peer kp) (kp_bls kp) (kp_bls_public kp)).
  Proof.
    intros path rounds fs fs' kps i kp b n G K P Q. destruct (loop_ok path rounds 0 fs fs' kps G) as (A & B & _).
    destruct (rounds !! i) as [r|] eqn:R.
    2: { apply lookup_ge_None in R. apply lookup_lt_Some in K. lia. }
    destruct (B i r R) as (kp' & K' & F & FB & FN). rewrite K in K'. injection K' as <-. rewrite N.add_0_l in *.
    apply bls_path in P. apply net_path in Q. subst. unfold recover, obind. rewrite FB, FN.
    unfold from_private_keys, obind in *. destruct (net_pub L (r_net r)) as [p|]; [|done]. destruct (sk_of L (r_bls r)); [|done].
    destruct (address_of keccak L p); [|done]. injection F as <-. reflexivity.
  Qed.

  (* ---------------------------------------------------------------------- *)
  (** * Keys in use *)
  Context (OK : lib_ok L).

  Lemma gen_map_last l : forall acc m p, gen_map (BL L) acc l = Some m ->
    (forall l1 v l2, l = l1 ++ v :: l2 -> v_pub v = p -> Forall (fun w => v_pub w <> p) l2 -> m !! p = key_of (BL L) (v_bls v)) /\
    (Forall (fun w => v_pub w <> p) l -> m !! p = acc !! p).
  Proof.
    induction l as [|v l IH]; intros acc m p; cbn.
    - intros E. injection E as <-. split; [|done]. intros l1 v l2 E. by destruct l1.
    - destruct (key_of (BL L) (v_bls v)) as [k|] eqn:KO; [|done]. intros E. destruct (IH _ _ p E) as [A B]. split.
      + intros [|v' l1] w l2 X P F; injection X as -> ->.
        * rewrite B by done. rewrite <- P, lookup_insert. by rewrite KO.
        * by apply (A l1 w l2).
      + intros F. apply Forall_cons in F as [F1 F2]. rewrite B by done. by rewrite lookup_insert_ne.
  Qed.

  (** A node that starts with no key of its own from a provider is seen under the peer identifier of its network key, announces it, and uses the same
      key as its name in consensus: [recover] shows exactly what it acts as. *)
  Theorem C108_identity : forall fs cf vs nd, start keccak L None fs cf vs = Some nd ->
    exists kp x, recover keccak L fs (push (cf_dir cf) (cf_net cf)) (push (cf_dir cf) (cf_bls cf)) = Some kp /\
      nd_peer L nd = kp_peer kp /\ nd_local L nd = kp_peer kp /\ nd_name L nd = kp_public kp /\ nd_address L nd = kp_address kp /\
      sk_of L (kp_bls kp) = Some x /\ nd_sk L nd = x /\ kp_bls_public kp = key_bytes L (pub (BL L) x).
  Proof.
    intros fs cf vs nd. unfold start, load_privkey, recover, obind.
    destruct (fs !! push (cf_dir cf) (cf_net cf)) as [net|] eqn:E1; [|done]. destruct (len net =? 32); [|done].
    destruct (fs !! push (cf_dir cf) (cf_bls cf)) as [bls|] eqn:E2; [|done]. destruct (len bls =? 32); [|done].
    unfold from_private_keys, obind. destruct (net_pub L net) as [p|] eqn:NP; [|done]. destruct (sk_of L bls) as [x|] eqn:SK; [|done].
    destruct (generate_new_crypto_map _ vs) as [m|]; [|done]. destruct (uncompress L p) as [u|] eqn:U; [|done].
    intros E. injection E as <-. unfold address_of, obind. destruct (net_len L OK _ _ NP) as [_ PL]. rewrite PL, N.eqb_refl, U.
    eexists _, x. split; [reflexivity|]. cbn. done.
  Qed.

  (** A node starts exactly when the two files can be recovered and the keys of the validators can be read; nothing else about the keys
      matters. *)
  Theorem C108_starts : forall custom fs cf vs,
    is_Some (start keccak L custom fs cf vs) <->
    is_Some (recover keccak L fs (push (cf_dir cf) (cf_net cf)) (push (cf_dir cf) (cf_bls cf))) /\
    is_Some (generate_new_crypto_map (BL L) vs).
  Proof.
    intros custom fs cf vs. unfold start, load_privkey, recover, obind.
    destruct (fs !! push (cf_dir cf) (cf_net cf)) as [net|] eqn:E1.
    2: { split; [intros [? X]|intros [[? X] _]]; discriminate X. }
    destruct (fs !! push (cf_dir cf) (cf_bls cf)) as [bls|] eqn:E2.
    2: { split; [|intros [[? X] _]; discriminate X]. destruct (len net =? 32); intros [? X]; cbn in X; discriminate X. }
    unfold from_private_keys, obind. destruct (net_pub L net) as [p|] eqn:NP.
    2: { split; [|intros [[? X] _]; discriminate X]. destruct (len net =? 32), (len bls =? 32); rewrite ?NP; intros [? X]; discriminate X. }
    destruct (net_len L OK _ _ NP) as [NL PL]. rewrite NL, N.eqb_refl.
    destruct (sk_of L bls) as [x|] eqn:SK.
    2: { split; [|intros [[? X] _]; discriminate X]. destruct (len bls =? 32); rewrite ?NP, ?SK; intros [? X]; discriminate X. }
    rewrite (sk_len L OK _ _ SK), N.eqb_refl, NP, SK. destruct (net_unc L OK _ _ NP) as [u U].
    unfold address_of, obind. rewrite PL, N.eqb_refl, U.
    destruct (generate_new_crypto_map (BL L) vs) as [m|].
    - split; [intros _|intros _]; [split|]; eexists; reflexivity.
    - split; [intros [? X]; cbn in X; discriminate X|intros [_ [? X]]; discriminate X].
  Qed.

  (** The votes of a node are accepted by a node with the key map [m] exactly when [m] has the public part of its key under its name. *)
  Theorem C108_votes : forall custom fs cf vs nd hash sg (m : gmap bytes (K (BL L))), start keccak L custom fs cf vs = Some nd ->
    vote L nd hash = Some sg ->
    verify_signature (BL L) m sg hash (nd_name L nd) = true <-> m !! nd_name L nd = Some (pub (BL L) (nd_sk L nd)).
  Proof.
    intros custom fs cf vs nd hash sg m. unfold start, load_privkey, obind.
    destruct (fs !! push (cf_dir cf) (cf_net cf)) as [net|] eqn:E1; [|done]. destruct (len net =? 32); [|done].
    destruct (fs !! push (cf_dir cf) (cf_bls cf)) as [bls|] eqn:E2; [|done]. destruct (len bls =? 32); [|done].
    destruct (net_pub L net) as [p|] eqn:NP; [|done]. destruct (sk_of L bls) as [x|] eqn:SK; [|done].
    destruct (generate_new_crypto_map _ vs) as [mm|]; [|done]. destruct (uncompress L p) as [u|] eqn:U; [|done].
    intros E. injection E as <-. unfold vote, sign, verify_signature. cbn. destruct (len hash =? 32); [|done]. cbn.
    intros E. injection E as <-. destruct (m !! p) as [k|]; [|split; intros X; discriminate X].
    rewrite (sig_read L OK _ _ hash SK), (sig_ok L OK _ _ hash k SK). split; congruence.
  Qed.

  (** From generation to consensus: a node that is given the files of a printed pair, on a chain that lists the printed public keys as its (last)
      validator of that name, starts, is the peer and the validator that was printed, is among the peers that are treated as validators, and
      every node of the chain accepts its votes. *)
  Theorem C108_run : forall path rounds fs fs' kps i kp cf vs m l1 v l2, generate keccak L path rounds fs = (fs', Some kps) -> kps !! i = Some kp ->
    key_path path NET (N.of_nat i) (push (cf_dir cf) (cf_net cf)) -> key_path path BLS (N.of_nat i) (push (cf_dir cf) (cf_bls cf)) ->
    generate_new_crypto_map (BL L) vs = Some m ->
    vs = l1 ++ v :: l2 -> v_pub v = kp_public kp -> v_bls v = kp_bls_public kp -> Forall (fun w => v_pub w <> kp_public kp) l2 ->
    exists nd, start keccak L None fs' cf vs = Some nd /\ nd_peer L nd = kp_peer kp /\ nd_local L nd = kp_peer kp /\ nd_name L nd = kp_public kp /\
      nd_address L nd = kp_address kp /\ nd_peer L nd ∈ tagged L vs /\ nd_keys L nd = m /\
      forall hash sg, vote L nd hash = Some sg -> verify_signature (BL L) m sg hash (kp_public kp) = true.
  Proof.
    intros path rounds fs fs' kps i kp cf vs m l1 v l2 G KI PN PB GM VS VP VB LAST.
    pose proof (C108_recover _ _ _ _ _ _ _ _ _ G KI PB PN) as REC.
    assert (S : is_Some (start keccak L None fs' cf vs)).
    { apply C108_starts. rewrite REC, GM. split; eexists; reflexivity. }
    destruct S as [nd S]. exists nd. split; [done|].
    destruct (C108_identity _ _ _ _ S) as (kp' & x & REC' & I1 & I2 & I3 & I4 & I5 & I6 & I7).
    rewrite REC in REC'. injection REC' as <-. cbn in *.
    split; [done|]. split; [done|]. split; [done|]. split; [done|]. split.
    { rewrite I1. apply elem_of_list_In, in_map_iff. exists v. split; [|rewrite VS; apply in_or_app; right; by left].
      clear - G KI VP I1 I3 S. rewrite VP, <- I3, <- I1. unfold start, obind in S.
      destruct (load_privkey fs' _); [|done]. destruct (load_privkey fs' _); [|done]. destruct (net_pub L _); [|done]. destruct (sk_of L _); [|done].
      destruct (generate_new_crypto_map _ vs); [|done]. destruct (uncompress L _); [|done]. injection S as <-. reflexivity. }
    split.
    { clear - S GM. unfold start, obind in S. rewrite GM in S.
      destruct (load_privkey fs' _); [|done]. destruct (load_privkey fs' _); [|done]. destruct (net_pub L _); [|done]. destruct (sk_of L _); [|done].
      destruct (uncompress L _); [|done]. injection S as <-. reflexivity. }
    intros hash sg V. rewrite <- I3. apply (C108_votes _ _ _ _ _ _ _ m S V). rewrite I3.
    destruct (gen_map_last vs ∅ m (kp_public kp) GM) as [A _]. rewrite (A l1 v l2 VS VP LAST), VB, I7, I6. by apply (pub_read L OK _ _ I5).
  Qed.
End keys.

(* ---------------------------------------------------------------------- *)
(** * Which keys are refused *)

(** The orders of the two groups: a secret of secp256k1 or of BLS12-381 is a number between 1 and the order, as 32 bytes. *)
Definition secp_order : N := 0xFFFFFFFFFFFFFFFFFFFFFFFFFFFFFFFEBAAEDCE6AF48A03BBFD25E8CD0364141.
Definition bls_order : N := 0x73eda753299d7d483339d80809a1d80553bda402fffe5bfeffffffff00000001.
Definition secret_below (n : N) (b : bytes) : Prop := len b = 32 /\ 0 < be_val b < n.
Record ranges_ok (L : keylib) : Prop := {
  net_range : forall b, is_Some (net_pub L b) <-> secret_below secp_order b;
  sk_range : forall b, is_Some (sk_of L b) <-> secret_below bls_order b }.

(** Files that are missing, have another length or hold no secret are refused, by [recover] and at start. *)
Theorem C108_refused : forall keccak L, lib_ok L -> ranges_ok L -> forall custom fs cf vs n b,
  n = push (cf_dir cf) (cf_net cf) -> b = push (cf_dir cf) (cf_bls cf) ->
  ~ (exists x y, fs !! n = Some x /\ fs !! b = Some y /\ secret_below secp_order x /\ secret_below bls_order y) ->
  recover keccak L fs n b = None /\ start keccak L custom fs cf vs = None.
Proof.
  intros keccak L OK RG custom fs cf vs n b -> -> H.
  assert (R : recover keccak L fs (push (cf_dir cf) (cf_net cf)) (push (cf_dir cf) (cf_bls cf)) = None).
  { unfold recover, from_private_keys, obind. destruct (fs !! push (cf_dir cf) (cf_net cf)) as [x|] eqn:X; [|done].
    destruct (fs !! push (cf_dir cf) (cf_bls cf)) as [y|] eqn:Y; [|done].
    destruct (net_pub L x) as [p|] eqn:P; [|done]. destruct (sk_of L y) as [k|] eqn:S; [|done]. exfalso. apply H.
    exists x, y. split; [done|]. split; [done|]. split; [apply (net_range L RG); by rewrite P|apply (sk_range L RG); by rewrite S]. }
  split; [done|]. destruct (start keccak L custom fs cf vs) as [nd|] eqn:S; [|done].
  assert (I : is_Some (start keccak L custom fs cf vs)) by (by rewrite S). apply (C108_starts keccak L OK) in I. rewrite R in I.
  destruct I as [[? I] _]. discriminate I.
Qed.

(** Every BLS secret is a network secret: the entry for the network key takes any BLS key file. *)
Theorem C108_any_bls_key : forall L, ranges_ok L -> forall b x, sk_of L b = Some x -> exists p, net_pub L b = Some p.
Proof.
  intros L RG b x S. apply (net_range L RG). assert (I : is_Some (sk_of L b)) by (by rewrite S). apply (sk_range L RG) in I.
  destruct I as [A [B C]]. split; [done|]. split; [done|]. eapply N.lt_trans; [exact C|]. vm_compute. reflexivity.
Qed.

(* ---------------------------------------------------------------------- *)
(** * A library that keeps the promises *)

Definition in_range (n : N) (b : bytes) : bool := (len b =? 32) && (0 <? be_val b) && (be_val b <? n).
Lemma in_range_ok n b : in_range n b = true <-> secret_below n b.
Proof. unfold in_range, secret_below. rewrite !andb_true_iff, N.eqb_eq, !N.ltb_lt. tauto. Qed.
Definition toy_bls : bls := Bls bytes bytes bytes
  (fun b => if len b =? 32 then Some b else None) (fun b => Some b) (fun s => s) (fun a b => a) (fun a b => a)
  (fun s h k => beqb s (k ++ h)) (fun x => x) (fun x h => x ++ h).
Definition toy : keylib := KeyLib (fun b => if in_range secp_order b then Some (2 :: b) else None)
  (fun p => Some (4 :: skipn 1 p ++ skipn 1 p)) (fun p => 18 :: 32 :: skipn 1 p) toy_bls
  (fun b => if in_range bls_order b then Some b else None) (fun k => k).
Lemma toy_ok : lib_ok toy.
Proof.
  split; cbn.
  - intros b p. destruct (in_range secp_order b) eqn:E; [|done]. intros X. injection X as <-. apply in_range_ok in E. destruct E as [E _].
    split; [done|]. unfold len in *. cbn [length]. lia.
  - intros b p _. by eexists.
  - intros b x. destruct (in_range bls_order b) eqn:E; [|done]. intros X. injection X as <-. apply in_range_ok in E. apply E.
  - intros b x. destruct (in_range bls_order b) eqn:E; [|done]. intros X. injection X as <-. apply in_range_ok in E. destruct E as [E _]. by rewrite E.
  - done.
  - intros b x h k _. rewrite beqb_eq. split; [|by intros ->]. intros E. symmetry. by apply app_inv_tail in E.
Qed.
Lemma toy_ranges : ranges_ok toy.
Proof.
  split; cbn; intros b; rewrite <- in_range_ok; destruct (in_range _ b); split; try done; intros H; first [by eexists | destruct H as [? H]; discriminate H].
Qed.

(** Two pairs in the directory "/k". *)
Definition k1 : bytes := repeat 0 31 ++ [11].
Definition k2 : bytes := repeat 0 31 ++ [12].
Definition k3 : bytes := repeat 0 31 ++ [13].
Definition k4 : bytes := repeat 0 31 ++ [14].
Definition hash0 (b : bytes) : bytes := firstn 32 (b ++ repeat 0 32).
Definition dir : bytes := [47; 107].
Definition gen (l : list round) (fs : fsys) := generate hash0 toy dir l fs.
Definition two : list round := [Round k1 k2 WDone WDone; Round k3 k4 WDone WDone].
Definition disk : fsys := fst (gen two ∅).
Definition printed : list keypair := match snd (gen two ∅) with Some l => l | None => [] end.
Definition conf : config := Config [47; 107] (net_name 1) (bls_name 1).
Definition nobody : keypair := Keypair 0 [] [] [] [] [] [].
Definition second : keypair := nth 1 printed nobody.
Definition listed : list validator := [Val_ k1 (2 :: k2) [] 1 1; Val_ k3 (2 :: k4) [] 1 1].

Lemma gen_two : gen two ∅ = (disk, Some printed).
Proof.
  unfold disk, printed. assert (S : match snd (gen two ∅) with Some _ => true | None => false end = true) by (vm_compute; reflexivity).
  destruct (gen two ∅) as [f [l|]]; [reflexivity|discriminate S].
Qed.
Definition nd0 : node toy := Node toy [] [] [] [] k1 ∅.
Definition started (custom : option bytes) (cf : config) : node toy :=
  match start hash0 toy custom disk cf listed with Some n => n | None => nd0 end.
Lemma started_ok custom cf : match start hash0 toy custom disk cf listed with Some _ => true | None => false end = true ->
  start hash0 toy custom disk cf listed = Some (started custom cf).
Proof. unfold started. destruct (start hash0 toy custom disk cf listed); [reflexivity|]. intros E. discriminate E. Qed.
(** The hypotheses of C108_run hold for the second pair; what it says is not empty. *)
Example C108_ex :
  gen two ∅ = (disk, Some printed) /\ printed !! 1%nat = Some second /\
  key_path dir NET 1 (push (cf_dir conf) (cf_net conf)) /\ key_path dir BLS 1 (push (cf_dir conf) (cf_bls conf)) /\
  (exists m, generate_new_crypto_map (BL toy) listed = Some m) /\
  v_pub (Val_ k3 (2 :: k4) [] 1 1) = kp_public second /\ v_bls (Val_ k3 (2 :: k4) [] 1 1) = kp_bls_public second /\
  exists nd sg, start hash0 toy None disk conf listed = Some nd /\ vote toy nd k1 = Some sg /\
    verify_signature (BL toy) (nd_keys toy nd) sg k1 (2 :: k4) = true.
Proof.
  split; [apply gen_two|]. split; [vm_compute; reflexivity|]. split; [apply net_path; reflexivity|]. split; [apply bls_path; reflexivity|].
  split.
  { assert (S : match generate_new_crypto_map (BL toy) listed with Some _ => true | None => false end = true) by (vm_compute; reflexivity).
    destruct (generate_new_crypto_map (BL toy) listed) as [m|]; [by exists m|discriminate S]. }
  split; [vm_compute; reflexivity|]. split; [vm_compute; reflexivity|].
  exists (started None conf), (k3 ++ k1). split; [apply started_ok; vm_compute; reflexivity|]. split; [vm_compute; reflexivity|]. vm_compute. reflexivity.
Qed.

(* ---------------------------------------------------------------------- *)
(** * Findings *)

(** Generating keys again in the same directory succeeds and the keys that were there are gone: no file holds the old network key any more and it is not
    printed. *)
Theorem C108_overwrite_refuted : exists l fs' kps n,
  key_path dir NET 0 n /\ disk !! n = Some k2 /\ gen l disk = (fs', Some kps) /\
  (forall p, fs' !! p <> Some k2) /\ Forall (fun kp => kp_net kp <> k2 /\ kp_bls kp <> k2) kps.
Proof.
  exists [Round k3 k4 WDone WDone], (fst (gen [Round k3 k4 WDone WDone] disk)),
    (match snd (gen [Round k3 k4 WDone WDone] disk) with Some l => l | None => [] end), (push dir (net_name 0)).
  split; [by apply net_path|]. split; [vm_compute; reflexivity|]. split.
  { assert (S : match snd (gen [Round k3 k4 WDone WDone] disk) with Some _ => true | None => false end = true) by (vm_compute; reflexivity).
    destruct (gen [Round k3 k4 WDone WDone] disk) as [f [q|]]; [reflexivity|discriminate S]. }
  split.
  - intros p E. assert (M : map_Forall (fun (_ x : list N) => x <> k2) (fst (gen [Round k3 k4 WDone WDone] disk))) by (apply (bool_decide_unpack _); vm_compute; exact I).
    exact (M p k2 E eq_refl).
  - vm_compute. repeat constructor; discriminate.
Qed.

(** A failure between the two writes leaves a pair that never was one: the new BLS key, which is printed nowhere, beside the old network key. *)
Theorem C108_mixed_refuted : exists l fs' b n kp,
  key_path dir BLS 0 b /\ key_path dir NET 0 n /\ gen l disk = (fs', None) /\
  recover hash0 toy fs' n b = Some kp /\ kp_net kp = k2 /\ kp_bls kp = k3 /\
  is_Some (recover hash0 toy disk n b) /\ recover hash0 toy disk n b <> Some kp /\ (forall p, fs' !! p <> Some k1).
Proof.
  exists [Round k3 k4 WDone WClosed], (fst (gen [Round k3 k4 WDone WClosed] disk)), (push dir (bls_name 0)), (push dir (net_name 0)).
  eexists. split; [by apply bls_path|]. split; [by apply net_path|]. split.
  { assert (S : match snd (gen [Round k3 k4 WDone WClosed] disk) with Some _ => false | None => true end = true) by (vm_compute; reflexivity).
    destruct (gen [Round k3 k4 WDone WClosed] disk) as [f [q|]]; [discriminate S|reflexivity]. }
  split; [vm_compute; reflexivity|]. split; [reflexivity|]. split; [reflexivity|]. split; [eexists; vm_compute; reflexivity|].
  split; [vm_compute; discriminate|].
  intros p E. assert (M : map_Forall (fun (_ x : list N) => x <> k1) (fst (gen [Round k3 k4 WDone WClosed] disk))) by (apply (bool_decide_unpack _); vm_compute; exact I).
    exact (M p k1 E eq_refl).
Qed.

(** Exchanged entries are not noticed: the node starts, under another name, which no list of validators has, and the right entries would have started
    the validator. *)
Theorem C108_swapped_refuted : exists cf cf' nd nd',
  cf_dir cf' = cf_dir cf /\ cf_net cf' = cf_bls cf /\ cf_bls cf' = cf_net cf /\
  start hash0 toy None disk cf listed = Some nd /\ nd_name toy nd ∈ map v_pub listed /\
  start hash0 toy None disk cf' listed = Some nd' /\ nd_name toy nd' ∉ map v_pub listed /\ nd_peer toy nd' ∉ tagged toy listed.
Proof.
  set (sw := Config [47; 107] (bls_name 1) (net_name 1)).
  exists conf, sw, (started None conf), (started None sw). split; [done|]. split; [done|]. split; [done|].
  split; [apply started_ok; vm_compute; reflexivity|]. split; [apply (bool_decide_unpack _); vm_compute; exact I|].
  split; [apply started_ok; vm_compute; reflexivity|].
  split; apply (bool_decide_unpack _); vm_compute; exact I.
Qed.

(** A validator with a BLS key that is not the listed one starts without a word; all its votes are refused, by itself as well. *)
Theorem C108_mismatch_refuted : exists cf nd,
  start hash0 toy None disk cf listed = Some nd /\ nd_name toy nd ∈ map v_pub listed /\
  forall hash sg, vote toy nd hash = Some sg -> verify_signature (BL toy) (nd_keys toy nd) sg hash (nd_name toy nd) = false.
Proof.
  set (mm := Config [47; 107] (net_name 1) (bls_name 0)). exists mm, (started None mm).
  assert (S : start hash0 toy None disk mm listed = Some (started None mm)) by (apply started_ok; vm_compute; reflexivity).
  split; [exact S|].
  assert (N1 : nd_name toy (started None mm) = 2 :: k4 /\ nd_sk toy (started None mm) = k1 /\ nd_keys toy (started None mm) !! (2 :: k4) = Some k3).
  { split; [vm_compute; reflexivity|]. split; vm_compute; reflexivity. }
  generalize dependent (started None mm). intros nd S N1.
  destruct N1 as (NN & NS & NK). split.
  { rewrite NN. apply (bool_decide_unpack _). vm_compute. exact I. }
  intros hash sg V. destruct (verify_signature (BL toy) (nd_keys toy nd) sg hash (nd_name toy nd)) eqn:E; [|reflexivity]. exfalso.
  apply (C108_votes hash0 toy toy_ok _ _ _ _ _ _ _ _ S V) in E. rewrite NN, NS in E. pose proof (eq_trans (eq_sym NK) E) as Q. vm_compute in Q. discriminate Q.
Qed.

(** With a key provider the node is another peer than the validator that it is: the peers do not treat it as a validator, what is sent to it by its public
    key does not arrive, and it announces an identifier that is not its own. *)
Theorem C108_custom_refuted : exists c nd,
  start hash0 toy (Some c) disk conf listed = Some nd /\ nd_name toy nd ∈ map v_pub listed /\
  nd_peer toy nd ∉ tagged toy listed /\ nd_peer toy nd <> peer_of toy (nd_name toy nd) /\ nd_local toy nd <> nd_peer toy nd.
Proof.
  exists (2 :: repeat 7 32), (started (Some (2 :: repeat 7 32)) conf). split; [apply started_ok; vm_compute; reflexivity|]. split; [apply (bool_decide_unpack _); vm_compute; exact I|].
  split; [apply (bool_decide_unpack _); vm_compute; exact I|]. split; vm_compute; discriminate.
Qed.

Print Assumptions C108_kept.
Print Assumptions C108_failed.
Print Assumptions C108_recover.
Print Assumptions C108_identity.
Print Assumptions C108_starts.
Print Assumptions C108_votes.
Print Assumptions C108_run.
Print Assumptions C108_refused.
Print Assumptions C108_any_bls_key.
Print Assumptions C108_overwrite_refuted.
Print Assumptions C108_mixed_refuted.
Print Assumptions C108_swapped_refuted.
Print Assumptions C108_mismatch_refuted.
Print Assumptions C108_custom_refuted.
