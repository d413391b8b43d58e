(** C86: hardforks are adopted and reported as they were announced. *)
From Verif Require Import Bytes BytesProofs Rlp RlpProofs TxModel TxProofs MetaModel MetaProps HardforkModel.
From Coq Require Import NArith List Bool Lia.
Import ListNotations.
Local Open Scope N_scope.

(** Bit [k] is in force at block [m] by the list of hardforks that the executor consults. *)
Definition in_force (n : node) (m k : N) : Prop := N.testbit (hf_at (hn_list n) m) k = true.
(** The bit of Andromeda. *)
Definition BIT : N := 56.
(** The nodes that exist: any history of commands, starts, stops, blocks. *)
Definition reach (hs : list hf_name) (ops : list op) (n : node) : Prop := n = HardforkModel.run (init_node hs) ops.

Lemma run_snoc n ops o : HardforkModel.run n (ops ++ [o]) = step (HardforkModel.run n ops) o.
Proof. unfold HardforkModel.run. rewrite fold_left_app. reflexivity. Qed.
Lemma run_app n a b : HardforkModel.run n (a ++ b) = HardforkModel.run (HardforkModel.run n a) b.
Proof. unfold HardforkModel.run. apply fold_left_app. Qed.

(* ---------------- flags ---------------- *)
Lemma flag_and : be_flag 1 = 2 ^ 56. Proof. reflexivity. Qed.
Lemma fold_names l a : a = 0 \/ a = 1 -> let r := fold_left (fun acc h => N.lor acc (name_val h)) l a in r = 0 \/ r = 1.
Proof.
  revert a. induction l as [|h l IH]; intros a Ha; [exact Ha|]. cbn [fold_left]. apply IH.
  destruct h, Ha as [->| ->]; cbn; auto.
Qed.
Lemma input_flags_cases l : input_flags l = 0 \/ input_flags l = 2 ^ 56.
Proof.
  unfold input_flags. destruct l as [|h r]; [right; reflexivity|].
  assert (G : be_flag (fold_left (fun acc h => N.lor acc (name_val h)) (h :: r) 0) = 0 \/ be_flag (fold_left (fun acc h => N.lor acc (name_val h)) (h :: r) 0) = 2 ^ 56).
  { destruct (fold_names (h :: r) 0 (or_introl eq_refl)) as [E|E]; rewrite E; [left|right]; reflexivity. }
  destruct h; [destruct r; [left; reflexivity|exact G]|exact G].
Qed.
Lemma land_bit x : (N.land x (2 ^ 56) =? 0) = negb (N.testbit x 56).
Proof.
  destruct (N.testbit x 56) eqn:E; cbn [negb].
  - apply N.eqb_neq. intros H. assert (B : N.testbit (N.land x (2 ^ 56)) 56 = true) by (rewrite N.land_spec, E; reflexivity).
    rewrite H in B. discriminate.
  - apply N.eqb_eq, N.bits_inj. intros k. rewrite N.land_spec, N.bits_0. destruct (N.eq_dec k 56) as [->|Hk].
    + rewrite E. reflexivity.
    + rewrite N.pow2_bits_false by congruence. apply andb_false_r.
Qed.
Lemma covers_sub f g : covers f g = true <-> sub g f.
Proof.
  unfold covers. rewrite N.eqb_eq. split.
  - intros H k Hk. rewrite <- H, N.land_spec in Hk. apply andb_true_iff in Hk. tauto.
  - intros H. apply N.bits_inj. intros k. rewrite N.land_spec. destruct (N.testbit g k) eqn:E; [|apply andb_false_r].
    rewrite (H k E). reflexivity.
Qed.

(* ---------------- the encoding ---------------- *)
Lemma enc_str_short b : (length b < 56)%nat -> (length (enc_str b) <= 1 + length b)%nat.
Proof.
  intros H. unfold enc_str. assert (E : enc_header 128 (len b) = [128 + len b]).
  { unfold enc_header. replace (len b <? 56) with true; [reflexivity|]. symmetry. apply N.ltb_lt. unfold len. lia. }
  destruct b as [|x [|y r]]; [rewrite E; cbn; lia|destruct (x <? 128); [cbn; lia|rewrite E; cbn; lia]|rewrite E; cbn; lia].
Qed.
Lemma dec_enc_hardfork b f : b < 2 ^ 64 -> f < 2 ^ 256 -> dec_hardfork (enc_hardfork (b, f)) = Some (b, f).
Proof.
  intros Hb Hf. unfold dec_hardfork, enc_hardfork. cbn [fst snd].
  assert (W : wf_bytes (be_fixed 32 f)) by apply be_fixed_wf. assert (L : length (be_fixed 32 f) = 32%nat) by apply be_fixed_length.
  assert (NB : (length (be_min b) <= 8)%nat) by (rewrite be_min_length; apply nbytes_le; exact Hb).
  set (items := [enc_uint b; enc_hash (be_fixed 32 f)]).
  assert (HI : Forall is_item items).
  { constructor; [apply item_u64; exact Hb|]. constructor; [|constructor]. apply is_item_hash; [exact W|]. unfold len. rewrite L. reflexivity. }
  assert (LC : len (concat items) < 2 ^ 64).
  { subst items. cbn [concat]. rewrite app_nil_r. unfold len. rewrite app_length. unfold enc_uint, enc_hash.
    pose proof (enc_str_short (be_min b)) as A. pose proof (enc_str_short (be_fixed 32 f)) as B. rewrite L in B.
    apply N.lt_trans with 100; [|reflexivity]. lia. }
  rewrite (val_at_list _ _ 0 _ HI LC eq_refl), dec_uint_enc by (lia || exact Hb). cbn [obind].
  rewrite (val_at_list _ _ 1 _ HI LC eq_refl), dec_hash_enc by (assumption || reflexivity). cbn [obind].
  rewrite be_val_fixed by exact Hf. reflexivity.
Qed.

(* ---------------- invariants ---------------- *)
Definition adopts (o : op) : option (list bytes) :=
  match o with OCommit e | OSync e | OCommitCrash e => Some e | _ => None end.
Lemma step_list n o : hn_list (step n o) = hn_list n \/ exists e, adopts o = Some e /\ hn_list (step n o) = adopt (hn_list n) e.
Proof.
  destruct o as [i| | | |e|e| |e]; cbn [step adopts].
  - left. unfold cli_set. destruct (hn_mem n); [reflexivity|]. destruct (input i) as [v|]; [|reflexivity].
    destruct (fst v <=? hn_number n); [reflexivity|]. destruct (snd v =? 0); [reflexivity|].
    destruct (last_flags (hn_list n)) as [f|]; [destruct (covers f (snd v))|]; reflexivity.
  - left. destruct (hn_mem n); reflexivity.
  - left. reflexivity.
  - left. unfold propose. destruct (hn_mem n) as [[v|]|]; [|reflexivity..]. destruct (fst v <=? hn_number n + 1); reflexivity.
  - destruct (hn_mem n) as [m|] eqn:M; [|left; reflexivity]. right. exists e. split; [reflexivity|]. unfold commit. rewrite M.
    destruct m as [v|]; [|reflexivity]. destruct (last_flags (adopt (hn_list n) e)) as [f|]; [|reflexivity]. destruct (covers f (snd v)); reflexivity.
  - destruct (hn_mem n); [|left; reflexivity]. right. exists e. split; reflexivity.
  - left. unfold propose. destruct (hn_mem n) as [[v|]|]; [|reflexivity..]. destruct (fst v <=? hn_number n + 1); reflexivity.
  - destruct (hn_mem n) as [m|] eqn:M; [|left; reflexivity]. right. exists e. split; [reflexivity|]. unfold commit. rewrite M.
    destruct m as [v|]; [|reflexivity]. destruct (last_flags (adopt (hn_list n) e)) as [f|]; [|reflexivity]. destruct (covers f (snd v)); reflexivity.
Qed.
Lemma adopt_ok l e : hfok l -> hfok (adopt l e).
Proof.
  intros H. destruct e as [|t r]; [exact H|]. cbn [adopt]. destruct (dec_hardfork t) as [[b f]|]; [apply hfok_push, H|exact H].
Qed.
Lemma reach_ok hs ops n : reach hs ops n -> hfok (hn_list n).
Proof.
  intros ->. induction ops as [|o ops IH] using rev_ind.
  - cbn. change (hfok ([] ++ [(0, input_flags hs)])). constructor; [constructor|]. intros ? ? [].
  - rewrite run_snoc. destruct (step_list (HardforkModel.run (init_node hs) ops) o) as [E|(e & _ & E)]; rewrite E; [exact IH|apply adopt_ok, IH].
Qed.
Lemma adopt_grows l e m : hfok l -> sub (hf_at l m) (hf_at (adopt l e) m).
Proof.
  intros H. destruct e as [|t r]; [apply sub_refl|]. cbn [adopt]. destruct (dec_hardfork t) as [[b f]|]; [apply hf_push_grows, H|apply sub_refl].
Qed.
Lemma run_ok n ops : hfok (hn_list n) -> hfok (hn_list (HardforkModel.run n ops)).
Proof.
  intros H. induction ops as [|o ops IH] using rev_ind; [exact H|]. rewrite run_snoc.
  destruct (step_list (HardforkModel.run n ops) o) as [E|(e & _ & E)]; rewrite E; [exact IH|apply adopt_ok, IH].
Qed.
Lemma run_grows n ops m : hfok (hn_list n) -> sub (hf_at (hn_list n) m) (hf_at (hn_list (HardforkModel.run n ops)) m).
Proof.
  intros H. induction ops as [|o ops IH] using rev_ind; [apply sub_refl|]. rewrite run_snoc.
  destruct (step_list (HardforkModel.run n ops) o) as [E|(e & _ & E)]; rewrite E; [exact IH|].
  intros k Hk. apply (adopt_grows _ e m (run_ok n ops H)), IH, Hk.
Qed.
Lemma push_bit l b f m k : N.testbit (hf_at (hf_push l b f) m) k = true ->
  N.testbit (hf_at l m) k = true \/ b <= m /\ N.testbit f k = true.
Proof.
  destruct (hf_push_cases l b f) as [[-> ->]|(o & lb & lf & -> & C)].
  - change [(b, f)] with ([] ++ [(b, f)]). rewrite hf_at_snoc. destruct (N.ltb_spec m b); [auto|]. intros H'. right. split; [assumption|exact H'].
  - destruct C as [[_ ->]|[[_ ->]|[[-> ->]|[L ->]]]]; [auto|auto| |].
    + rewrite !hf_at_snoc. destruct (N.ltb_spec m b); [auto|]. rewrite N.lor_spec. intros H'. apply orb_true_iff in H'. tauto.
    + rewrite (hf_at_snoc (o ++ [(lb, lf)])). destruct (N.ltb_spec m b); [auto|]. rewrite hf_at_snoc.
      rewrite (proj2 (N.ltb_ge m lb)) by lia. rewrite N.lor_spec. intros H'. apply orb_true_iff in H'. tauto.
Qed.
Definition last_number (l : list hfi) : N := match List.rev l with (b, _) :: _ => b | [] => 0 end.
Lemma push_sets l b f m k : last_number l <= b -> b <= m -> N.testbit f k = true -> N.testbit (hf_at (hf_push l b f) m) k = true.
Proof.
  intros Hl Hm Hk. destruct (hf_push_cases l b f) as [[-> ->]|(o & lb & lf & -> & C)].
  - change [(b, f)] with ([] ++ [(b, f)]). rewrite hf_at_snoc. destruct (N.ltb_spec m b); [lia|exact Hk].
  - unfold last_number in Hl. rewrite rev_app_distr in Hl. cbn in Hl.
    destruct C as [[E ->]|[[C _]|[[-> ->]|[L ->]]]]; [|lia| |].
    + rewrite hf_at_snoc. rewrite (proj2 (N.ltb_ge m lb)) by lia. rewrite <- E, N.lor_spec, Hk. reflexivity.
    + rewrite hf_at_snoc, (proj2 (N.ltb_ge m b)), N.lor_spec, Hk by lia. reflexivity.
    + rewrite hf_at_snoc, (proj2 (N.ltb_ge m b)), N.lor_spec, Hk by lia. reflexivity.
Qed.

(* ---------------- what is announced ---------------- *)
(** What a running node remembers, and what is stored, was given on the command line of this node. *)
Definition commanded (ops : list op) (v : hfi) : Prop := snd v <> 0 /\ exists b l, In (OCli (Some (b, l))) ops /\ v = (b, input_flags l).
Lemma register_inv hs ops n : reach hs ops n ->
  (forall v, hn_stored n = Some v -> commanded ops v) /\ (forall v, hn_mem n = Some (Some v) -> hn_stored n = Some v).
Proof.
  intros ->. induction ops as [|o ops [IH1 IH2]] using rev_ind; [split; discriminate|].
  rewrite run_snoc. set (n := HardforkModel.run (init_node hs) ops) in *.
  assert (W : forall v, commanded ops v -> commanded (ops ++ [o]) v).
  { intros v [Z (b & l & I & E)]. split; [exact Z|]. exists b, l. split; [apply in_or_app; auto|exact E]. }
  assert (F : forall n', hn_stored n' = hn_stored n -> hn_mem n' = hn_mem n \/ hn_mem n' = None \/ hn_mem n' = Some (hn_stored n) ->
    (forall v, hn_stored n' = Some v -> commanded (ops ++ [o]) v) /\ (forall v, hn_mem n' = Some (Some v) -> hn_stored n' = Some v)).
  { intros n' E D. split; [intros v Hv; apply W, IH1; congruence|]. intros v Hv. rewrite E. destruct D as [D|[D|D]]; [apply IH2; congruence|congruence|congruence]. }
  assert (Z0 : forall l k, (forall v, hn_stored (Node_ None (Some None) l k) = Some v -> commanded (ops ++ [o]) v) /\
    (forall v, hn_mem (Node_ None (Some None) l k) = Some (Some v) -> hn_stored (Node_ None (Some None) l k) = Some v)) by (split; discriminate).
  destruct o as [i| | | |e|e| |e]; cbn [step].
  - unfold cli_set. destruct (hn_mem n) as [m|] eqn:M; [apply F; auto|].
    destruct i as [[b l]|]; cbn [input]; [|apply F; auto]. cbn [fst snd].
    destruct (b <=? hn_number n); [apply F; auto|].
    destruct (input_flags l =? 0) eqn:Z; [apply F; auto|]. apply N.eqb_neq in Z.
    assert (G : forall v, Some (b, input_flags l) = Some v -> commanded (ops ++ [OCli (Some (b, l))]) v).
    { intros v E. injection E as <-. split; [exact Z|]. exists b, l. split; [apply in_or_app; right; left; reflexivity|reflexivity]. }
    destruct (last_flags (hn_list n)) as [f|]; [destruct (covers f (input_flags l)); [apply F; auto|]|]; (split; [exact G|discriminate]).
  - destruct (hn_mem n) as [m|] eqn:M; apply F; auto.
  - apply F; auto.
  - unfold propose. destruct (hn_mem n) as [[v|]|] eqn:M; [|apply F; auto..].
    destruct (fst v <=? hn_number n + 1); [apply Z0|apply F; auto].
  - unfold commit. destruct (hn_mem n) as [[v|]|] eqn:M; [|apply F; auto..].
    destruct (last_flags (adopt (hn_list n) e)) as [f|]; [|apply F; auto].
    destruct (covers f (snd v)); [apply Z0|apply F; auto].
  - destruct (hn_mem n) as [m|] eqn:M; apply F; auto.
  - destruct (propose n) as [[e n']|]; apply F; auto.
  - destruct (hn_mem n) as [m|] eqn:M; apply F; auto.
Qed.

Lemma hfi_eqb_eq v w : hfi_eqb v w = true <-> v = w.
Proof.
  unfold hfi_eqb. rewrite andb_true_iff, !N.eqb_eq. destruct v, w; cbn. split; [intros [-> ->]; reflexivity|intros E; injection E; auto].
Qed.

(** A node agrees to a proposal that announces a hardfork only if its operator gave the same block number and flags. *)
Theorem C86_consent hs ops n t r : reach hs ops n -> approve n (t :: r) = true ->
  exists v, dec_hardfork t = Some v /\ hn_mem n = Some (Some v) /\ commanded ops v.
Proof.
  intros R A. cbn [approve] in A. destruct (dec_hardfork t) as [d|] eqn:D; [|discriminate].
  destruct (hn_mem n) as [[v|]|] eqn:M; [|discriminate..]. apply hfi_eqb_eq in A. subst d.
  destruct (register_inv _ _ _ R) as [I1 I2]. exists v. split; [reflexivity|]. split; [reflexivity|]. apply I1, I2, M.
Qed.

(** What an honest proposer announces was given to it, starts after the block, and is approved by exactly the nodes with the same announcement. *)
Definition small (ops : list op) : Prop := forall b l, In (OCli (Some (b, l))) ops -> b < 2 ^ 64.
Theorem C86_propose hs ops n e n' : reach hs ops n -> small ops -> propose n = Some (e, n') ->
  (forall n2, e = [] -> approve n2 e = true) /\
  (e <> [] -> exists v, commanded ops v /\ hn_number n + 1 < fst v /\ dec_hardfork (hd [] e) = Some v /\
    forall n2, approve n2 e = true <-> hn_mem n2 = Some (Some v)).
Proof.
  intros R Sm P. split; [intros n2 ->; reflexivity|]. intros Hne. unfold propose in P.
  destruct (hn_mem n) as [[v|]|] eqn:M; [|injection P as <- _; contradiction|discriminate].
  destruct (fst v <=? hn_number n + 1) eqn:L; injection P as <- _; [contradiction|]. apply N.leb_gt in L.
  destruct (register_inv _ _ _ R) as [I1 I2]. pose proof (I1 _ (I2 _ M)) as C. exists v. split; [exact C|]. split; [exact L|].
  assert (D : dec_hardfork (enc_hardfork v) = Some v).
  { destruct C as [_ (b & l & I & ->)]. apply dec_enc_hardfork; [eapply Sm, I|]. destruct (input_flags_cases l) as [->| ->]; reflexivity. }
  split; [exact D|]. intros n2. cbn [approve]. rewrite D. destruct (hn_mem n2) as [[w|]|]; [|split; discriminate..].
  rewrite hfi_eqb_eq. split; [intros ->; reflexivity|intros E; injection E as ->; reflexivity].
Qed.

(* ---------------- what is adopted ---------------- *)
(** A block that announces a hardfork puts it in force from the announced block on, for good, and changes nothing before that block. *)
Theorem C86_adopted hs ops n e b f : reach hs ops n -> hn_mem n <> None -> dec_hardfork (hd [] e) = Some (b, f) -> e <> [] ->
  last_number (hn_list n) <= b ->
  forall o, o = OCommit e \/ o = OSync e \/ o = OCommitCrash e ->
  (forall later m k, b <= m -> N.testbit f k = true -> in_force (HardforkModel.run (step n o) later) m k) /\
  (forall m k, m < b -> in_force (step n o) m k <-> in_force n m k).
Proof.
  intros R M D Hne Hl o Ho. pose proof (reach_ok _ _ _ R) as OK.
  assert (L : hn_list (step n o) = hf_push (hn_list n) b f).
  { destruct e as [|t r]; [contradiction|]. cbn [hd] in D.
    assert (A : adopt (hn_list n) (t :: r) = hf_push (hn_list n) b f) by (cbn [adopt]; rewrite D; reflexivity). rewrite <- A.
    destruct (hn_mem n) as [mm|] eqn:Em; [|contradiction].
    destruct Ho as [->|[->| ->]]; cbn [step]; rewrite Em; unfold commit, sync, lose_removal; rewrite ?Em; cbn [hn_list];
      try reflexivity; (destruct mm as [v|]; [|reflexivity]); (destruct (last_flags (adopt (hn_list n) (t :: r))) as [fl|]; [|reflexivity]);
      destruct (covers fl (snd v)); reflexivity. }
  split.
  - intros later m k Hm Hk. unfold in_force. apply run_grows; [rewrite L; apply hfok_push, OK|]. rewrite L. apply push_sets; assumption.
  - intros m k Hm. unfold in_force. rewrite L. split.
    + intros H. apply push_bit in H. destruct H as [H|[H _]]; [exact H|lia].
    + apply hf_push_grows, OK.
Qed.

(** Nothing else puts a hardfork in force: the chain spec, at every block, or a block of the chain that announced it. *)
Theorem C86_only hs ops n m k : reach hs ops n -> in_force n m k ->
  N.testbit (input_flags hs) k = true \/
  exists o e b f, In o ops /\ adopts o = Some e /\ dec_hardfork (hd [] e) = Some (b, f) /\ b <= m /\ N.testbit f k = true.
Proof.
  intros ->. unfold in_force. induction ops as [|o ops IH] using rev_ind.
  - cbn. unfold hf_at. cbn. destruct (negb (m <? 0)); [auto|]. rewrite N.bits_0. discriminate.
  - rewrite run_snoc. intros H.
    assert (G : N.testbit (hf_at (hn_list (HardforkModel.run (init_node hs) ops)) m) k = true -> N.testbit (input_flags hs) k = true \/
      exists o' e b f, In o' (ops ++ [o]) /\ adopts o' = Some e /\ dec_hardfork (hd [] e) = Some (b, f) /\ b <= m /\ N.testbit f k = true).
    { intros H'. destruct (IH H') as [H1|(o' & e & b & f & I & H1)]; [auto|]. right. exists o', e, b, f. split; [apply in_or_app; auto|exact H1]. }
    destruct (step_list (HardforkModel.run (init_node hs) ops) o) as [E|(e & Ad & E)]; rewrite E in H; [auto|].
    destruct e as [|t r]; [auto|]. cbn [adopt] in H. destruct (dec_hardfork t) as [[b f]|] eqn:D; [|auto].
    apply push_bit in H. destruct H as [H|[Hb Hk]]; [auto|]. right. exists o, (t :: r), b, f.
    split; [apply in_or_app; right; left; reflexivity|]. auto.
Qed.

(** After a commit the register holds nothing that is already decided. *)
Theorem C86_not_again n e v f : hn_mem (commit n e) = Some (Some v) -> last_flags (hn_list (commit n e)) = Some f -> ~ sub (snd v) f.
Proof.
  unfold commit. destruct (hn_mem n) as [[w|]|] eqn:M; [|cbn; rewrite ?M; discriminate|cbn; discriminate].
  destruct (last_flags (adopt (hn_list n) e)) as [g|] eqn:L; [|cbn [hn_list]; congruence].
  destruct (covers g (snd w)) eqn:C; [discriminate|]. cbn [hn_mem hn_list]. intros E F H. injection E as <-.
  rewrite L in F. injection F as <-. apply covers_sub in H. congruence.
Qed.

(* ---------------- what the operator can give ---------------- *)
Lemma rev_nil_inv {A} (l : list A) : List.rev l = [] -> l = [].
Proof. intros H. rewrite <- (rev_involutive l), H. reflexivity. Qed.
(** The command changes the stored announcement only, and only to one that lies ahead and is not decided yet; it fails on a block that is past. *)
Theorem C86_command hs ops n b l : reach hs ops n -> hn_mem n = None ->
  (b <= hn_number n -> cli_set n (input (Some (b, l))) = Err) /\
  (hn_number n < b -> exists n', cli_set n (input (Some (b, l))) = Ok n' /\ hn_list n' = hn_list n /\ hn_number n' = hn_number n /\ hn_mem n' = None /\
    ((exists m, in_force n m BIT) \/ input_flags l = 0 -> hn_stored n' = hn_stored n) /\
    (~ (exists m, in_force n m BIT) -> input_flags l <> 0 -> hn_stored n' = Some (b, 2 ^ BIT))).
Proof.
  intros R M. split; intros H; unfold cli_set; rewrite M; cbn [input fst snd].
  - rewrite (proj2 (N.leb_le _ _) H). reflexivity.
  - rewrite (proj2 (N.leb_gt _ _) H). pose proof (reach_ok _ _ _ R) as OK.
    destruct (input_flags_cases l) as [E|E]; rewrite E.
    { rewrite N.eqb_refl. exists n. repeat split; auto. intros _ C. congruence. }
    change (2 ^ 56 =? 0) with false. cbv iota.
    assert (T : forall f, last_flags (hn_list n) = Some f -> covers f (2 ^ 56) = true <-> exists m, in_force n m BIT).
    { intros f Lf. unfold last_flags in Lf. destruct (List.rev (hn_list n)) as [|[lb lf] r] eqn:Rv; [discriminate|]. cbn in Lf. injection Lf as <-.
      apply rev_cons_inv in Rv. unfold in_force. rewrite covers_sub. split.
      - intros Hs. exists lb. rewrite Rv, hf_at_snoc, N.ltb_irrefl. apply Hs. reflexivity.
      - intros [m Hm] k Hk. assert (k = 56) as -> by (destruct (N.eq_dec k 56); [assumption|rewrite N.pow2_bits_false in Hk by congruence; discriminate]).
        rewrite Rv in Hm, OK. rewrite hf_at_snoc in Hm. destruct (m <? lb); [|exact Hm].
        apply hfok_snoc_inv in OK as [_ OK]. destruct (hf_at_in (rev r) m) as [Z|(b' & B & _)]; [unfold BIT in Hm; rewrite Z, N.bits_0 in Hm; discriminate|].
        apply (OK _ _ B), Hm. }
    destruct (last_flags (hn_list n)) as [f|] eqn:Lf.
    + destruct (covers f (2 ^ 56)) eqn:C.
      * exists n. repeat split; auto. intros C' _. exfalso. apply C', (T f eq_refl); exact C.
      * eexists. split; [reflexivity|]. cbn. repeat split; auto. intros [Q|Q]; [|discriminate Q]. apply (T f eq_refl) in Q. congruence.
    + eexists. split; [reflexivity|]. cbn. repeat split; auto. intros [[m Q]|Q]; [|discriminate Q].
      unfold last_flags in Lf. unfold in_force, hf_at in Q. destruct (List.rev (hn_list n)) eqn:Rv; [|discriminate Lf]. cbn in Q. discriminate Q.
Qed.
(** While the node runs the command fails, for every input, and what the node announces stays. *)
Theorem C86_command_running n i : hn_mem n <> None -> cli_set n (input i) = Err /\ step n (OCli i) = n.
Proof. intros M. cbn [step]. unfold cli_set. destruct (hn_mem n); [split; reflexivity|now destruct M]. Qed.

(* ---------------- what is reported ---------------- *)
Lemma scan_some n L f : fst (scan n L (Some f)) = Some f.
Proof. induction L as [|[b g] L IH]; [reflexivity|]. cbn [scan]. destruct (n <? b); [exact IH|reflexivity]. Qed.
Lemma scan_at n L d : match snd (scan n L d) with Some f => f | None => 0 end = hf_at (rev L) n.
Proof.
  revert d. induction L as [|[b g] L IH]; intros d; [reflexivity|]. cbn [scan rev]. rewrite hf_at_snoc.
  destruct (n <? b); [apply IH|reflexivity].
Qed.
Lemma top_bit (l : list hfi) k : hfok l -> (exists m, N.testbit (hf_at l m) k = true) <-> exists f, last_flags l = Some f /\ N.testbit f k = true.
Proof.
  intros OK. unfold last_flags. destruct (List.rev l) as [|[lb lf] r] eqn:Rv.
  - split; [intros [m H]; unfold hf_at in H; rewrite Rv in H; cbn in H; discriminate H|intros (f & E & _); cbn in E; discriminate E].
  - cbn. pose proof (rev_cons_inv _ _ _ Rv) as E. split.
    + intros [m H]. exists lf. split; [reflexivity|]. rewrite E in H, OK. rewrite hf_at_snoc in H. destruct (m <? lb); [|exact H].
      apply hfok_snoc_inv in OK as [_ OK]. destruct (hf_at_in (rev r) m) as [Z|(b' & B & _)]; [rewrite Z, N.bits_0 in H; discriminate|]. apply (OK _ _ B), H.
    + intros (f & Ef & H). injection Ef as <-. exists lb. rewrite E, hf_at_snoc, N.ltb_irrefl. exact H.
Qed.
Lemma hf_at_one b f n : hf_at [(b, f)] n = if n <? b then 0 else f.
Proof. exact (hf_at_snoc [] b f n). Qed.
(** The two sets of the handler: what is in force at the block, and what is decided but not in force. *)
Lemma ead_spec (l : list hfi) n : hfok l ->
  fst (enabled_and_determined l n) = hf_at l n /\
  forall k, N.testbit (snd (enabled_and_determined l n)) k = true <-> N.testbit (hf_at l n) k = false /\ exists m, N.testbit (hf_at l m) k = true.
Proof.
  intros OK. unfold enabled_and_determined. destruct (length l <? 2)%nat eqn:L.
  - apply Nat.ltb_lt in L. destruct l as [|[b f] [|? ?]]; [|clear L|cbn in L; lia].
    + split; [reflexivity|]. intros k. split; [intros H; discriminate H|intros [_ [m H]]; unfold hf_at in H; cbn in H; discriminate H].
    + cbn [List.rev app]. rewrite hf_at_one. destruct (N.ltb_spec n b) as [B|B]; cbn [fst snd].
      * split; [reflexivity|]. intros k. split.
        -- intros H. split; [reflexivity|]. exists b. rewrite hf_at_one, N.ltb_irrefl. exact H.
        -- intros [_ [m H]]. rewrite hf_at_one in H. destruct (m <? b); [discriminate H|exact H].
      * split; [reflexivity|]. intros k. split; [intros H; discriminate H|]. intros [H0 [m H]].
        rewrite hf_at_one in H. destruct (m <? b); [discriminate H|congruence].
  - destruct (scan n (List.rev l) None) as [det en] eqn:Sc. cbn [fst snd].
    assert (E : match en with Some f => f | None => 0 end = hf_at l n) by (pose proof (scan_at n (List.rev l) None) as X; rewrite Sc, rev_involutive in X; exact X).
    rewrite E. split; [reflexivity|]. intros k.
    destruct (List.rev l) as [|[lb lf] r] eqn:Rv; [apply rev_nil_inv in Rv; subst; discriminate|].
    pose proof (rev_cons_inv _ _ _ Rv) as El. cbn [scan] in Sc.
    pose proof (top_bit l k OK) as Tb. unfold last_flags in Tb. rewrite Rv in Tb. cbn in Tb.
    assert (Tb' : (exists m, N.testbit (hf_at l m) k = true) <-> N.testbit lf k = true).
    { rewrite Tb. split; [intros (f & Ef & H); injection Ef as <-; exact H|intros H; exists lf; auto]. } rewrite Tb'.
    destruct (N.ltb_spec n lb) as [B|B].
    + assert (det = Some lf) as -> by (pose proof (scan_some n r lf) as X; rewrite Sc in X; exact X).
      destruct (lf =? 0) eqn:Z.
      * apply N.eqb_eq in Z. subst lf. rewrite N.bits_0. split; [discriminate|tauto].
      * rewrite N.lxor_spec.
        assert (Sb : N.testbit (hf_at l n) k = true -> N.testbit lf k = true) by (intros H; apply Tb'; eauto).
        destruct (N.testbit (hf_at l n) k), (N.testbit lf k); cbn; try tauto; (split; [try discriminate|intros [? ?]; congruence]); intros _; discriminate (Sb eq_refl).
    + injection Sc as <- <-. cbn. rewrite N.bits_0. rewrite <- E. split; [discriminate|intros [? ?]; congruence].
Qed.

(** The RPC reports a hardfork as enabled when it is in force, as determined when it will be, as proposed when it is only announced on
    this node, and not at all otherwise. *)
Theorem C86_report hs ops n : reach hs ops n ->
  (hf_report n HAndromeda = Some SEnabled <-> in_force n (hn_number n) BIT) /\
  (hf_report n HAndromeda = Some SDetermined <-> ~ in_force n (hn_number n) BIT /\ exists m, hn_number n < m /\ in_force n m BIT) /\
  (hf_report n HAndromeda = Some SProposed <-> (forall m, ~ in_force n m BIT) /\ exists v, hn_stored n = Some v /\ N.testbit (snd v) BIT = true) /\
  hf_report n HNone = None.
Proof.
  intros R. pose proof (reach_ok _ _ _ R) as OK. destruct (ead_spec (hn_list n) (hn_number n) OK) as [E D].
  specialize (D 56). unfold hf_report, in_force, BIT. cbn [name_val]. rewrite flag_and. change (be_flag 0) with 0.
  destruct (enabled_and_determined (hn_list n) (hn_number n)) as [en det]. cbn [fst snd] in E, D. subst en.
  rewrite !land_bit, !N.land_0_r.
  assert (Mo : forall m, N.testbit (hf_at (hn_list n) (hn_number n)) 56 = false -> N.testbit (hf_at (hn_list n) m) 56 = true -> hn_number n < m).
  { intros m H0 H1. destruct (N.lt_ge_cases (hn_number n) m) as [|G]; [assumption|]. apply (hf_mono _ _ _ OK G) in H1. congruence. }
  destruct (N.testbit (hf_at (hn_list n) (hn_number n)) 56) eqn:B0; cbn [negb].
  - split; [tauto|]. split; [split; [discriminate|intros [C _]; congruence]|]. split; [split; [discriminate|intros [C _]; destruct (C _ B0)]|].
    destruct (hn_stored n) as [p|]; rewrite ?N.land_0_r; reflexivity.
  - destruct (N.testbit det 56) eqn:B1; cbn [negb].
    + destruct (proj1 D eq_refl) as [_ [m Hm]]. split; [split; discriminate|]. split.
      { split; [intros _; split; [discriminate|]; exists m; auto|reflexivity]. }
      split; [split; [discriminate|intros [C _]; destruct (C _ Hm)]|]. destruct (hn_stored n) as [p|]; rewrite ?N.land_0_r; reflexivity.
    + assert (Nv : forall m, N.testbit (hf_at (hn_list n) m) 56 <> true) by (intros m Hm; discriminate (proj2 D (conj eq_refl (ex_intro _ m Hm)))).
      split; [destruct (hn_stored n) as [p|]; [rewrite land_bit; destruct (N.testbit (snd p) 56)|]; split; discriminate|].
      split; [split; [destruct (hn_stored n) as [p|]; [rewrite land_bit; destruct (N.testbit (snd p) 56)|]; discriminate|intros [_ (m & _ & Hm)]; destruct (Nv _ Hm)]|].
      split; [|destruct (hn_stored n) as [p|]; rewrite ?N.land_0_r; reflexivity].
      destruct (hn_stored n) as [p|]; [rewrite land_bit; destruct (N.testbit (snd p) 56) eqn:Bp; cbn [negb]|].
      * split; [intros _; split; [exact Nv|]; exists p; auto|reflexivity].
      * split; [discriminate|intros [_ (v & Ev & Hv)]]. injection Ev as <-. congruence.
      * split; [discriminate|intros [_ (v & Ev & _)]]. discriminate.
Qed.

(* ---------------- examples and what is false ---------------- *)
Definition A10 : bytes := enc_hardfork (10, 2 ^ 56).
(** Announced, proposed, adopted, in force. *)
Definition ops1 : list op := [OCli (Some (10, [HAndromeda])); OStart].
Example C86_ex :
  reach [HNone] ops1 (HardforkModel.run (init_node [HNone]) ops1) /\
  hf_report (HardforkModel.run (init_node [HNone]) ops1) HAndromeda = Some SProposed /\
  option_map fst (propose (HardforkModel.run (init_node [HNone]) ops1)) = Some [A10] /\
  approve (HardforkModel.run (init_node [HNone]) ops1) [A10] = true /\
  approve (init_node [HNone]) [A10] = false /\
  hf_report (HardforkModel.run (init_node [HNone]) (ops1 ++ [OCommit [A10]])) HAndromeda = Some SDetermined /\
  hn_stored (HardforkModel.run (init_node [HNone]) (ops1 ++ [OCommit [A10]])) = None /\
  hf_report (HardforkModel.run (init_node [HNone]) (ops1 ++ OCommit [A10] :: repeat (OCommit []) 8)) HAndromeda = Some SDetermined /\
  hf_report (HardforkModel.run (init_node [HNone]) (ops1 ++ OCommit [A10] :: repeat (OCommit []) 9)) HAndromeda = Some SEnabled.
Proof. split; [reflexivity|]. repeat split; vm_compute; reflexivity. Qed.

(** The hypotheses of [C86_adopted], [C86_only] and [C86_not_again]: a block announces 10 while this node keeps another announcement. *)
Example C86_ex_hyps :
  let n := HardforkModel.run (init_node [HNone]) ops1 in
  reach [HNone] ops1 n /\ small ops1 /\ hn_mem n <> None /\ dec_hardfork (hd [] [A10]) = Some (10, 2 ^ 56) /\ last_number (hn_list n) <= 10 /\
  in_force (step n (OCommit [A10])) 11 BIT /\ ~ in_force (step n (OCommit [A10])) 9 BIT /\
  hn_mem (commit n []) = Some (Some (10, 2 ^ 56)) /\ last_flags (hn_list (commit n [])) = Some 0.
Proof.
  cbv zeta. split; [reflexivity|]. split; [intros b l [E|[E|[]]]; [injection E as <- _; reflexivity|discriminate E]|].
  split; [vm_compute; discriminate|]. split; [vm_compute; reflexivity|]. split; [vm_compute; discriminate|].
  split; [vm_compute; reflexivity|]. split; [vm_compute; discriminate|]. split; vm_compute; reflexivity.
Qed.

(** A node approves an announcement whose first block has passed, and the blocks since then are then recorded as under the hardfork although
    they were executed without it. *)
Theorem C86_late_refuted : exists ops n e m, reach [HNone] ops n /\ approve n e = true /\
  dec_hardfork (hd [] e) = Some (10, 2 ^ 56) /\ 10 < hn_number n + 1 /\
  m <= hn_number n /\ ~ in_force n m BIT /\ in_force (step n (OCommit e)) m BIT.
Proof.
  exists (ops1 ++ repeat (OCommit []) 14), (HardforkModel.run (init_node [HNone]) (ops1 ++ repeat (OCommit []) 14)), [A10], 12.
  split; [reflexivity|]. split; [vm_compute; reflexivity|]. split; [vm_compute; reflexivity|].
  split; [vm_compute; reflexivity|]. split; [vm_compute; discriminate|]. split; [vm_compute; discriminate|vm_compute; reflexivity].
Qed.
(** A node that got the adopting block by synchronisation proposes the hardfork again, and those who committed it refuse the proposal. *)
Theorem C86_sync_refuted : exists ops n e n2, reach [HNone] ops n /\ (exists m, in_force n m BIT) /\
  option_map fst (propose n) = Some e /\ e <> [] /\ reach [HNone] (ops1 ++ [OCommit [A10]]) n2 /\ hn_list n2 = hn_list n /\ approve n2 e = false.
Proof.
  exists (ops1 ++ [OSync [A10]]), (HardforkModel.run (init_node [HNone]) (ops1 ++ [OSync [A10]])), [A10],
    (HardforkModel.run (init_node [HNone]) (ops1 ++ [OCommit [A10]])).
  split; [reflexivity|]. split; [exists 10; vm_compute; reflexivity|]. split; [vm_compute; reflexivity|]. split; [discriminate|].
  split; [reflexivity|]. split; vm_compute; reflexivity.
Qed.

Print Assumptions C86_consent.
Print Assumptions C86_propose.
Print Assumptions C86_adopted.
Print Assumptions C86_only.
Print Assumptions C86_not_again.
Print Assumptions C86_command.
Print Assumptions C86_command_running.
Print Assumptions C86_report.
Print Assumptions C86_late_refuted.
Print Assumptions C86_sync_refuted.
