(** C82: which requests end the node (the ones that do are in Web3Props5.v). *)
From Verif Require Import Bytes BytesProofs Rlp RlpProofs TxModel TxSpec TxProofs StorageModel StorageProofs StorageProps BlockModel BlockProofs BloomModel BloomProofs BloomProps Web3Model Web3Props Web3Props2.
From stdpp Require Import base gmap list.
From Coq Require Import Lia.
Local Open Scope N_scope.
Notation block := BlockModel.block (only parsing).

(* ------------------------------------------------------------------ *)
(** * Decoded transactions can be shown *)

Lemma long_len_app lol p q v : long_len lol p = Some v -> long_len lol (p ++ q) = Some v.
Proof.
  unfold long_len. destruct p as [|x p]; [done|]. cbn [app]. destruct (x =? 0); [done|].
  destruct (length (x :: p) <? lol)%nat eqn:L; [done|]. apply Nat.ltb_ge in L.
  assert (length (x :: p ++ q) <? lol = false)%nat as ->. { apply Nat.ltb_ge. cbn in *. rewrite app_length. lia. }
  change (x :: p ++ q) with ((x :: p) ++ q). rewrite firstn_app.
  replace (lol - length (x :: p))%nat with 0%nat by lia. cbn [firstn]. by rewrite app_nil_r.
Qed.
Lemma payload_hdr_app p q h v : payload_hdr p = Some (h, v) -> payload_hdr (p ++ q) = Some (h, v).
Proof.
  unfold payload_hdr. destruct p as [|l p]; [done|]. cbn [app].
  destruct (l <=? 127); [done|]. destruct (l <=? 183); [done|].
  destruct (l <=? 191). { destruct (long_len _ p) eqn:E; [|done]. by rewrite (long_len_app _ _ q _ E). }
  destruct (l <=? 247); [done|]. destruct (long_len _ p) eqn:E; [|done]. by rewrite (long_len_app _ _ q _ E).
Qed.
Lemma payload_hdr_pos p h v : payload_hdr p = Some (h, v) -> 1 <= N.of_nat h + v.
Proof.
  unfold payload_hdr. destruct p as [|l p]; [done|].
  destruct (l <=? 127). { intros [= <- <-]. lia. } destruct (l <=? 183). { intros [= <- <-]. lia. }
  destruct (l <=? 191). { destruct (long_len _ p); [|done]. intros [= <- <-]. lia. }
  destruct (l <=? 247). { intros [= <- <-]. lia. } destruct (long_len _ p); [|done]. intros [= <- <-]. lia.
Qed.
Lemma next_item_prefix p q y r : next_item p = Some (y, r) ->
  p = y ++ r /\ (1 <= length y)%nat /\ next_item (p ++ q) = Some (y, r ++ q).
Proof.
  unfold next_item, payload_info. destruct (payload_hdr p) as [[h v]|] eqn:H; [|done].
  destruct (_ <=? len p) eqn:L; [|done]. apply N.leb_le in L. intros [= <- <-]. unfold len in L.
  rewrite (payload_hdr_app _ q _ _ H). apply payload_hdr_pos in H.
  assert (N.of_nat h + v <=? len (p ++ q) = true) as ->. { apply N.leb_le. unfold len. rewrite app_length. lia. }
  split; [by rewrite firstn_skipn|]. split; [rewrite firstn_length; lia|].
  rewrite firstn_app, skipn_app. replace (h + N.to_nat v - length p)%nat with 0%nat by lia. cbn [firstn skipn]. by rewrite app_nil_r.
Qed.
Lemma parse_items_prefix f p q i x f' : nth_error (parse_items f p) i = Some x -> (length (p ++ q) <= f')%nat ->
  nth_error (parse_items f' (p ++ q)) i = Some x.
Proof.
  revert p i f'. induction f as [|f IH]; intros p i f' E L; [destruct i; done|]. cbn [parse_items] in E.
  destruct (next_item p) as [[y r]|] eqn:N; [|destruct i; done].
  destruct (next_item_prefix p q y r N) as (-> & Y & N'). rewrite !app_length in L.
  destruct f' as [|f']; [lia|]. cbn [parse_items]. rewrite N'. destruct i as [|i]; [exact E|]. cbn [nth_error] in *.
  apply IH; [done|]. rewrite app_length. lia.
Qed.
Lemma at_restart_at b i x : at_restart b i = Some x -> at_ b i = Some x.
Proof.
  unfold at_restart, at_, inner_items, view_items. destruct (is_list b); [|destruct i; done].
  destruct (payload_info b) as [[h v]|]; [|destruct i; done].
  set (p := firstn v (skipn h b)). set (q := skipn v (skipn h b)).
  assert (PQ : skipn h b = p ++ q) by (unfold p, q; by rewrite firstn_skipn).
  intros E. destruct (length p) as [|f] eqn:LP; [destruct i; done|]. cbn [parse_items] in E.
  destruct (next_item p) as [[y r]|] eqn:N; [|destruct i; done].
  destruct (next_item_prefix p q y r N) as (PE & _ & _).
  assert (S : skipn (h + length y) b = r ++ q).
  { rewrite <- drop_drop, PQ, PE, <- app_assoc, skipn_app, skipn_all, Nat.sub_diag. done. }
  rewrite S. destruct i as [|i]; [exact E|]. cbn [nth_error] in *. by eapply parse_items_prefix.
Qed.
Lemma dec_value_size i d : dec_value i = Some d -> (size_ i <= length d)%nat.
Proof.
  unfold size_. destruct (is_data i) eqn:D; [|lia]. destruct (payload_info i) as [[h v]|] eqn:P; [|lia].
  unfold dec_value, payload_info, payload_hdr in *. destruct i as [|l tl]; [done|].
  destruct (l <=? 127). { destruct (_ <=? len _); [|done]. intros [= <-]. injection P as _ <-. cbn. lia. }
  destruct (l <=? 183).
  { destruct (_ <=? len _); [|done]. injection P as _ <-. destruct (_ <? _)%nat eqn:L; [done|]. apply Nat.ltb_ge in L.
    assert (E : length (firstn (N.to_nat (l - 128)) tl) = N.to_nat (l - 128)) by (rewrite firstn_length; lia).
    destruct (firstn _ tl) as [|a [|c e]] eqn:F; [intros [= <-]; cbn in *; lia| |intros [= <-]; cbn in *; lia].
    destruct (a <? 128); [done|]. intros [= <-]. cbn in *. lia. }
  destruct (l <=? 191); [|done].
  destruct (long_len _ tl) as [w|] eqn:LL; [|done]. destruct (_ <=? len _); [|done]. injection P as _ <-.
  unfold long_len in LL. destruct tl as [|x tl]; [done|]. destruct (x =? 0) eqn:X; [done|].
  destruct (_ <? _)%nat; [done|]. destruct (_ <=? 55); [done|]. injection LL as <-.
  destruct x as [|x]; [done|].
  destruct (len _ <? _) eqn:L2; [done|]. apply N.ltb_ge in L2. intros [= <-]. rewrite firstn_length, skipn_length. unfold len in L2. lia.
Qed.
Lemma dec_rs_lengths b off r s : dec_rs b off = Some (r, s) ->
  (length r = 32 /\ length s = 32)%nat \/ (64 < length r + length s)%nat.
Proof.
  unfold dec_rs, val_at, obind. destruct (at_ b (off + 1)) as [r0|] eqn:R0; [|done]. destruct (at_ b (off + 2)) as [s0|] eqn:S0; [|done].
  destruct (_ <=? 64)%nat eqn:L.
  - destruct (at_restart b _); [|done]. destruct (dec_uint 32 _); [|done]. destruct (dec_uint 32 s0); [|done].
    intros [= <- <-]. left. by rewrite !be_fixed_length.
  - apply Nat.leb_gt in L. destruct (at_restart b (off + 1)) as [ri|] eqn:RI; [|done]. apply at_restart_at in RI. rewrite R0 in RI.
    injection RI as <-. destruct (dec_value r0) as [r1|] eqn:E1; [|done]. destruct (dec_value s0) as [s1|] eqn:E2; [|done].
    intros [= <- <-]. apply dec_value_size in E1, E2. right. lia.
Qed.

(** Every transaction that the node decodes can be shown, if its chain id has at most 62 bits (its v is a byte). *)
Theorem C82_decoded_renderable : forall keccak raw u a p, dec_utx keccak raw = Ok u ->
  (forall c, u_chain u = Some c -> c < 2^62) -> (forall g, u_sig u = Some g -> sg_v g < 256) -> renderable (Stx u a p).
Proof.
  intros keccak raw u a p D CH SV.
  assert (RS : forall g, u_sig u = Some g -> exists b off, dec_rs b off = Some (sg_r g, sg_s g)).
  { unfold dec_utx in D. destruct raw as [|x raw]; [done|]. destruct (128 <=? x).
    - unfold dec_legacy, of_option, obind in D. destruct (item_count _); [|done]. destruct (_ =? 9)%nat; [|done].
      repeat match type of D with match (match ?x with Some _ => _ | None => None end) with _ => _ end = _ => destruct x eqn:?; [|done] end.
      injection D as <-. intros g [= <-]. unfold dec_sig_legacy, obind in *.
      destruct (extract_standard_v _); [|done]. destruct (dec_rs _ 6) as [[r1 s1]|] eqn:R; [|done].
      match goal with H : Some _ = Some ?g |- _ => injection H as <- end. eauto.
    - destruct (x =? 1); [|destruct (x =? 2); [|done]].
      + unfold dec_eip2930, of_option, obind in D. destruct (item_count _); [|done]. destruct (_ =? 11)%nat; [|done].
        repeat match type of D with match (match ?x with Some _ => _ | None => None end) with _ => _ end = _ => destruct x eqn:?; [|done] end.
        injection D as <-. intros g [= <-]. unfold dec_sig_typed, obind in *.
        destruct (val_at (dec_uint 1) _ 8); [|done]. destruct (dec_rs _ 8) as [[r1 s1]|] eqn:R; [|done].
        match goal with H : Some (SigC _ _ _) = Some ?g |- _ => injection H as <- end. eauto.
      + unfold dec_eip1559, of_option, obind in D. destruct (item_count _); [|done]. destruct (_ =? 12)%nat; [|done].
        repeat match type of D with match (match ?x with Some _ => _ | None => None end) with _ => _ end = _ => destruct x eqn:?; [|done] end.
        injection D as <-. intros g [= <-]. unfold dec_sig_typed, obind in *.
        destruct (val_at (dec_uint 1) _ 9); [|done]. destruct (dec_rs _ 9) as [[r1 s1]|] eqn:R; [|done].
        match goal with H : Some (SigC _ _ _) = Some ?g |- _ => injection H as <- end. eauto. }
  split; cbn [s_tx].
  - assert (match u_sig u with Some g => sg_v g | None => 0 end < 256). { destruct (u_sig u) as [g|]; [by apply SV|lia]. }
    destruct (u_chain u) as [c|]; [specialize (CH c eq_refl)|]; lia.
  - intros g G L. destruct (RS g G) as (b & off & R). destruct (dec_rs_lengths _ _ _ _ R) as [?|?]; [done|lia].
Qed.
Print Assumptions C82_decoded_renderable.

(* ------------------------------------------------------------------ *)
(** * Requests that cannot end the node *)

Section Crash.
  Variable keccak : bytes -> bytes.
  Notation W := (W keccak).
  Notation snap := (snap keccak).
  Notation hash_of := (hash_of keccak).
  Notation exec := (exec keccak).
  Notation views := (views keccak).
  Notation saved := (saved keccak).
  Notation answer := (answer keccak).
  Notation hash t := (u_hash (s_tx t)).

  (** Blocks the node can name. *)
  Definition known (s : snap) (b : block) : Prop := saved s b \/ latest_at W (sn_store _ s) = Some b.
  (** The node is in order: every block it can name has its state and its transactions, and no transaction
      is malformed (C82_decoded_renderable). *)
  Record in_order (v : nat -> snap) : Prop := {
    io_states : forall i b, known (v i) b -> exists w, state_of keccak (v i) b w /\ forall a, sa_nonce (acct_of w a) < 2^255;
    io_txs : forall i b x, known (v i) b -> x ∈ b_tx_hashes b -> exists n txs t, ETxs W n txs ∈ sn_store _ (v i) /\ t ∈ txs /\ hash t = x;
    io_stored : forall i n txs t, ETxs W n txs ∈ sn_store _ (v i) -> t ∈ txs -> renderable t;
    io_pool : forall i x t, sn_pool _ (v i) x = Some t -> renderable t;
    io_pending : forall i a, fst (sn_pending _ (v i) a) < 2^255;
    io_pending_height : forall i a n, snd (sn_pending _ (v i) a) = Some n -> n < 2^64;
    io_admit : forall i t, sn_admit _ (v i) t <> Panic }.

  Definition safe {A} (v : nat -> snap) (i : nat) (p : prog A) : Prop := exec v i p <> Panic.
  Lemma safe_bind {A B} v i (p : prog A) (f : A -> prog B) : safe v i p ->
    (forall a j, (i <= j)%nat -> exec v i p = Ok a -> safe v j (f a)) -> safe v i (bind p f).
  Proof using.
    unfold safe. intros P F. destruct (exec_bind keccak v i p f) as (j & J & E). rewrite E.
    destruct (exec v i p) as [a| |] eqn:X; [by apply F|done|done].
  Qed.
  Lemma safe_or_else {A} v i (p : prog A) d : safe v i p -> safe v i (or_else p d).
  Proof using. unfold safe. rewrite exec_or_else. by destruct (exec v i p). Qed.
  Lemma safe_ret {A} v i (a : A) : safe v i (ret a). Proof using. done. Qed.
  Lemma safe_get {A} v i (q : ask A) : answer (v i) q <> Panic -> safe v i (get q).
  Proof using. done. Qed.
  Lemma exec_get_inv {A} v i (q : ask A) o : exec v i (get q) = o -> answer (v i) q = o.
  Proof using. done. Qed.

  Definition u64_block (n : option N) : Prop := forall m, n = Some m -> m < 2^64.
  Lemma block_at_saved h n b : block_at W h n = Some b -> ESave W b ∈ h \/ ESet W b ∈ h.
  Proof using.
    induction h as [|e h IH]; [done|]. intros E.
    assert (D : (e = ESave W b \/ e = ESet W b) \/ block_at W h n = Some b).
    { destruct e; cbn in E; auto; destruct (decide _); auto; try done; injection E as ->; auto. }
    rewrite !elem_of_cons. destruct D as [[->| ->]|D]; auto. destruct (IH D); auto.
  Qed.
  Lemma header_at_saved h n x : header_at W h n = Some x -> exists b, b_header b = x /\ (ESave W b ∈ h \/ ESet W b ∈ h).
  Proof using.
    induction h as [|e h IH]; [done|]. intros E.
    assert (D : (exists b, b_header b = x /\ (e = ESave W b \/ e = ESet W b)) \/ header_at W h n = Some x).
    { destruct e; cbn in E; auto; destruct (decide _); auto; injection E as <-; left; eexists; (split; [reflexivity|]); auto. }
    destruct D as [(b & B & [->| ->])|D]; [exists b; rewrite !elem_of_cons; auto..|].
    destruct (IH D) as (b & B & [H|H]); exists b; rewrite !elem_of_cons; auto.
  Qed.
  Lemma view_answers v i : views v -> answers W (srun W (sn_store _ (v i))) (sn_store _ (v i)).
  Proof using.
    intros [V _]. destruct (V i) as [WF (FB & FN & FT & FR & FC & A)].
    apply (C33_warm_is_cold W _ WF (sv_stable W FB FN FT FR FC _ A)).
  Qed.
  Lemma ask_block v i n : views v -> u64_block n ->
    answer (v i) (QBlock n) <> Panic /\ forall b, answer (v i) (QBlock n) = Ok (Some b) -> known (v i) b.
  Proof using.
    intros V U. destruct (view_answers v i V) as (A & _). destruct n as [n|]; cbn [Web3Model.answer]; unfold store.
    - rewrite A by (by apply U). split; [done|]. intros b [= E]. left. apply block_at_saved in E. exact E.
    - destruct V as [V _]. destruct (V i) as [WF _]. destruct (C32_latest W _ WF) as (E1 & _). rewrite E1.
      destruct (latest_at W (sn_store keccak (v i))) as [b|] eqn:L; split; try done. intros b' [= <-]. by right.
  Qed.
  Lemma ask_header v i n : views v -> u64_block n ->
    answer (v i) (QHeader n) <> Panic /\ forall h, answer (v i) (QHeader n) = Ok (Some h) -> exists b, b_header b = h /\ known (v i) b.
  Proof using.
    intros V U. destruct (view_answers v i V) as (_ & A & _). destruct n as [n|]; cbn [Web3Model.answer]; unfold store.
    - rewrite A by (by apply U). split; [done|]. intros h [= E]. apply header_at_saved in E as (b & B & S). exists b. split; [done|]. by left.
    - destruct V as [V _]. destruct (V i) as [WF _]. destruct (C32_latest W _ WF) as (_ & E1 & _). rewrite E1.
      destruct (latest_at W (sn_store keccak (v i))) as [b|] eqn:L; split; try done. intros h [= <-]. exists b. split; [done|]. by right.
  Qed.
  Lemma ask_by_hash v i x : views v ->
    answer (v i) (QByHash x) <> Panic /\ forall b, answer (v i) (QByHash x) = Ok (Some b) -> known (v i) b.
  Proof using.
    intros V. destruct (view_answers v i V) as (_ & _ & _ & A & _). cbn [Web3Model.answer]; unfold store.
    rewrite A. split; [done|]. intros b [= E]. unfold by_hash_at in E. destruct (number_at _ _ _); [|done].
    apply block_at_saved in E. left. exact E.
  Qed.
  Lemma number_u64 v i x n : views v -> answer (v i) (QNumber x) = Ok n -> u64_block n.
  Proof using.
    intros V. destruct (view_answers v i V) as (_ & _ & A & _). cbn [Web3Model.answer]; unfold store. rewrite A. intros [= <-] m.
    destruct V as [V _]. destruct (V i) as [WF _]. revert WF. generalize (sn_store keccak (v i)). intros h.
    induction h as [|e h IH]; [done|]. intros WF. apply Forall_cons in WF as [WE WF].
    destruct e; cbn [number_at]; auto; destruct (decide _); auto; intros [= <-]; cbn in WE; intuition.
  Qed.
  Definition u64_id (i : option bid) : Prop := forall n, i = Some (BNum n) -> n < 2^64.
  Lemma safe_number v i id : views v -> u64_id id -> safe v i (number_by_id id) /\
    forall n, exec v i (number_by_id id) = Ok n -> u64_block n.
  Proof using.
    intros V U. destruct id as [[n|x| | |]|]; (split; [done|]); intros m E.
    - intros k K. cbn in E. injection E as <-. injection K as <-. by apply U.
    - exact (number_u64 v i x m V E).
    - cbn in E. injection E as <-. done.
    - cbn in E. injection E as <-. intros k [= <-]. lia.
    - cbn in E. injection E as <-. done.
    - cbn in E. injection E as <-. done.
  Qed.

  (** The trie of a block that the node can name. *)
  Lemma state_later v i j b : views v -> in_order v -> (i <= j)%nat -> known (v i) b -> exists w, state_of keccak (v j) b w /\ forall a, sa_nonce (acct_of w a) < 2^255.
  Proof using.
    intros V O L K. destruct (io_states _ O i b K) as (w & H & B). exists w. split; [|done].
    assert (LT := views_later keccak v i j V L). destruct H as (m & M & H). destruct LT as [_ T].
    destruct (T _ _ M) as (m' & M' & K'). exists m'. split; [done|]. intros a. specialize (H a). rewrite K'.
    destruct (w a) as [x|]; [|done]. destruct H as (r & E & WF & t & T1 & T2). exists r. split; [done|]. split; [done|].
    destruct (T _ _ T1) as (t' & T1' & T2'). exists t'. split; [done|]. intros p P. rewrite T2'. by apply T2.
  Qed.
  Lemma safe_account {A} v i a n (f : acct -> prog A) : views v -> in_order v -> u64_block n ->
    (forall ac j, (i <= j)%nat -> ac_nonce ac < 2^255 -> safe v j (f ac)) -> safe v i (bind (get_account a n) f).
  Proof using.
    intros V O U F. destruct (ask_block v i n V U) as [Q1 Q2].
    assert (R : safe v i (get_account a n) /\ forall ac, exec v i (get_account a n) = Ok ac -> ac_nonce ac < 2^255).
    { unfold get_account, safe. cbn [get bind Web3Model.exec]. destruct (answer (v i) (QBlock n)) as [[b|]| |] eqn:E; [|done..].
      cbn [bind get Web3Model.exec].
      destruct (state_later v i (S i) b V O ltac:(lia) (Q2 b eq_refl)) as (w & (m & M & H) & B). cbn [Web3Model.answer]. rewrite M. cbn [bind].
      specialize (H a). specialize (B a). unfold acct_of in B. destruct (w a) as [x|].
      - destruct H as (r & -> & WF & _). cbn. rewrite acct_roundtrip by done. cbn. split; [done|]. by intros ac [= <-].
      - rewrite H. cbn. split; [done|]. intros ac [= <-]. cbn. lia. }
    destruct R as [R1 R2]. apply safe_bind; [done|]. intros ac j J E. apply F; [done|]. by apply R2.
  Qed.

  Lemma safe_balance v a i : views v -> in_order v -> u64_id i -> safe v 0 (eth_getBalance a i).
  Proof using.
    intros V O U. destruct (safe_number v 0 i V U) as [S1 S2]. apply safe_bind; [done|]. intros n j J E.
    apply safe_or_else. apply safe_account; [done|done|by eapply S2|]. done.
  Qed.
  Lemma safe_nonce v a i : views v -> in_order v -> u64_id i -> safe v 0 (eth_getTransactionCount a i).
  Proof using.
    intros V O U. unfold eth_getTransactionCount. destruct (default BLatest i) as [n|x| | |] eqn:D.
    - apply safe_or_else. apply safe_account; [done|done| |done]. intros m [= <-]. apply U. destruct i as [b|]; [|done]. cbn in D. by subst.
    - apply safe_bind; [done|]. intros n j J E. apply safe_or_else. apply safe_account; [done|done|exact (number_u64 v 0 x n V E)|done].
    - apply safe_or_else. apply safe_account; [done|done| |done]. by intros m [= <-].
    - apply safe_or_else. apply safe_account; [done|done| |done]. by intros m [= <-].
    - apply safe_bind; [done|]. intros n j J E. apply safe_or_else.
      cbn [get Web3Model.exec Web3Model.answer] in E. injection E as <-.
      apply safe_account; [done|done| |].
      + intros m M. by eapply (io_pending_height v O 0 a).
      + intros ac k K B. pose proof (io_pending v O 0 a). assert (ac_nonce ac + (sn_pending keccak (v 0%nat) a).1 <? 2^256 = true) as ->; [|done].
        apply N.ltb_lt. change (2^256) with (2^255 + 2^255). lia.
  Qed.
  Lemma safe_code v a i : views v -> in_order v -> u64_id i -> safe v 0 (eth_getCode a i).
  Proof using.
    intros V O U. destruct (safe_number v 0 i V U) as [S1 S2]. apply safe_bind; [done|]. intros n j J E.
    apply safe_account; [done|done|by eapply S2|]. done.
  Qed.
  Lemma safe_block_number v : views v -> safe v 0 eth_blockNumber.
  Proof using.
    intros V. destruct (ask_header v 0 None V ltac:(done)) as [Q _]. apply safe_bind; [exact Q|]. intros [h|] j J E; done.
  Qed.
  Lemma safe_storage v a p i : views v -> in_order v -> u64_id i -> p < 2^256 -> safe v 0 (eth_getStorageAt a p i).
  Proof using.
    intros V O U P. unfold eth_getStorageAt. destruct (is_system_format a); [done|].
    destruct (safe_number v 0 i V U) as [S1 S2]. apply safe_bind; [done|]. intros n j J E.
    destruct (ask_header v j n V (S2 _ E)) as [Q1 Q2]. apply safe_bind; [exact Q1|]. intros [h|] k K E'; [|done].
    destruct (Q2 h E') as (b & B & KN). apply safe_or_else.
    destruct (state_later v j k b V O K KN) as (w & (m & M & H) & _). rewrite B in M.
    unfold storage_at, safe. cbn [get bind Web3Model.exec Web3Model.answer]. rewrite M. cbn [bind]. specialize (H a).
    destruct (w a) as [x|]; [|by rewrite H]. destruct H as (r & -> & WF & t & T & SH). rewrite acct_roundtrip by done.
    destruct (views_later keccak v k (S k) V ltac:(lia)) as [_ TL]. destruct (TL _ _ T) as (t' & T' & KT).
    cbn [get bind Web3Model.exec Web3Model.answer ac_root]. rewrite T'. cbn [bind]. rewrite KT. specialize (SH p P).
    destruct (t (be_fixed 32 p)) as [raw|]; [|done]. destruct SH as [-> SB]. rewrite dec_uint_enc; [done|exact SB|lia].
  Qed.

  (** ** Transactions and blocks *)
  Lemma tx_at_stored h x t : tx_at W h x = Some t -> exists n txs, ETxs W n txs ∈ h /\ t ∈ txs.
  Proof using.
    unfold tx_at. destruct (number_at W h x) as [n|]; [|done]. induction h as [|e h IH]; [done|]. intros E.
    assert (D : (exists m l, e = ETxs W m l /\ t ∈ l) \/ tx_in W h n x = Some t).
    { destruct e; cbn in E; auto. destruct (decide _); [|auto]. destruct (last_of _ _ _) as [t'|] eqn:L; [|auto].
      injection E as ->. left. do 2 eexists. split; [done|]. apply last_of_elem in L. apply L. }
    destruct D as [(m & l & -> & T)|D]; [exists m, l; split; [apply elem_of_list_here|done]|].
    destruct (IH D) as (m & l & H & T). exists m, l. split; [by right|done].
  Qed.
  Lemma safe_find {A} v i x (f : option stx -> prog A) : views v -> in_order v ->
    (forall t j, (i <= j)%nat -> renderable t -> safe v j (f (Some t))) ->
    ((exists n txs t, ETxs W n txs ∈ sn_store _ (v i) /\ t ∈ txs /\ hash t = x) \/ forall j, (i <= j)%nat -> safe v j (f None)) ->
    safe v i (bind (find_tx x) f).
  Proof using.
    intros V O F N. unfold find_tx, safe. cbn [get bind Web3Model.exec].
    change (answer (v i) (QPool x)) with (Ok (sn_pool _ (v i) x)). cbn [bind].
    destruct (sn_pool _ (v i) x) as [t|] eqn:P; [apply F; [lia|by eapply io_pool]|].
    cbn [bind get Web3Model.exec]. destruct (view_answers v (S i) V) as (_ & _ & _ & _ & AN & _).
    assert (E : answer (v (S i)) (QStored x) = Ok (tx_at W (sn_store _ (v (S i))) x)) by (cbn [Web3Model.answer]; f_equal; apply AN).
    rewrite E. cbn [bind]. destruct (tx_at W (sn_store _ (v (S i))) x) as [t|] eqn:T.
    - apply F; [lia|]. apply tx_at_stored in T as (n & txs & H & T). by eapply io_stored.
    - destruct N as [(n & txs & t & H & IN & HX)|N]; [|apply N; lia]. exfalso.
      destruct (views_later keccak v i (S i) V ltac:(lia)) as [[l L] _]. destruct V as [V _]. destruct (V (S i)) as [WF SV].
      assert (G := C32_tx_roundtrip W _ n txs t WF SV ltac:(rewrite L; apply elem_of_app; by right) IN).
      change (t_hash W t) with (hash t) in G. rewrite HX in G. rewrite AN in G. by rewrite T in G.
  Qed.
  Lemma to_wtx_safe t : renderable t -> to_wtx t <> Panic.
  Proof using. intros R. destruct (to_wtx_spec t R) as (w & -> & _). done. Qed.
  Lemma safe_tx v i x : views v -> in_order v -> safe v i (eth_getTransactionByHash x).
  Proof using.
    intros V O. apply safe_find; [done|done| |right; done]. intros t j J R.
    destruct (to_wtx_spec t R) as (w & E & _). rewrite E. cbn [bind].
    apply safe_bind; [done|]. intros [r|] k K _; done.
  Qed.
  Lemma safe_receipt v x : views v -> in_order v -> safe v 0 (eth_getTransactionReceipt x).
  Proof using.
    intros V O. apply safe_find; [done|done| |right; done]. intros t j J R. apply safe_bind; [done|]. done.
  Qed.
  Lemma safe_at_index v i b pos : views v -> in_order v -> safe v i (tx_at_index b pos).
  Proof using.
    intros V O. destruct b as [b|]; [|done]. cbn [tx_at_index]. destruct (nth_error _ _); [by apply safe_tx|done].
  Qed.
  Lemma safe_rich v b k : views v -> in_order v -> known (v k) b -> forall n x i hs j, (k <= j)%nat ->
    (forall h, h ∈ hs -> h ∈ b_tx_hashes b) -> safe v j (rich_txs n x i hs).
  Proof using.
    intros V O K n x i hs. revert i. induction hs as [|h hs IH]; intros i j J SUB; [done|]. cbn [rich_txs].
    apply safe_find; [done|done| |].
    - intros t j' J' R. destruct (to_wtx_spec t R) as (w & E & _). rewrite E. cbn [bind].
      apply safe_bind; [|done]. apply IH; [lia|]. intros h' H'. apply SUB. by right.
    - left. destruct (io_txs _ O k b h K (SUB h ltac:(by left))) as (m & txs & t & H & T). exists m, txs, t. split; [|done].
      destruct (views_later keccak v k j V J) as [[l L] _]. rewrite L. apply elem_of_app. by right.
  Qed.
  Lemma safe_show v i b rich : views v -> in_order v -> (forall x, b = Some x -> exists k, (k <= i)%nat /\ known (v k) x) -> safe v i (show_block keccak b rich).
  Proof using.
    intros V O K. destruct b as [b|]; [|done]. destruct (K b eq_refl) as (k & L & KN). cbn [show_block]. destruct rich; [|done].
    apply safe_bind; [|done]. by eapply safe_rich.
  Qed.

  (** ** Calls *)
  Section Call.
  Variable evm : bytes -> xcall -> exit_reason * bytes * N.
  (** Gas is paid from what the call was given. *)
  Definition gas_bounded : Prop := forall root k x d g, evm root k = (x, d, g) -> g <= k_gas k.
  (** Returned data that the revert message can be taken from: ABI text has its length in bytes 36..67. *)
  Definition short_message (d : bytes) : Prop := (length d < 68)%nat \/ be_val (firstn 32 (skipn 36 d)) < 2^64 - 68.
  Definition reverts_well : Prop := forall root k x d g, evm root k = (x, d, g) -> (forall r, x <> XSucceed r) -> short_message d.
  Lemma decode_safe d : short_message d -> decode_revert d <> Panic.
  Proof using keccak evm.
    unfold short_message, decode_revert. intros [L|L].
    - apply Nat.ltb_lt in L. by rewrite L.
    - destruct (_ <? 68)%nat; [done|]. change (2^64 - 68) with 18446744073709551548 in L. change (2^64) with 18446744073709551616.
      destruct (18446744073709551616 <=? be_val _) eqn:E1; [apply N.leb_le in E1; lia|].
      destruct (18446744073709551616 <=? 68 + _) eqn:E2; [apply N.leb_le in E2; lia|]. destruct (_ <? _); done.
  Qed.
  Lemma safe_call_evm {A} v i q n e (f : _ -> prog A) : views v -> in_order v -> u64_block n -> gas_bounded -> reverts_well ->
    default 0 (cq_gas q) <= MAX_GAS_LIMIT ->
    (forall j x d g, (succeeded x = false -> short_message d) -> safe v j (f (x, d, g))) ->
    safe v i (bind (call_evm evm q n e) f).
  Proof using keccak evm.
    intros V O U GB RW GQ F. unfold call_evm.
    assert (K : safe v i (bind (bind (get (QHeader n)) (fun o => match o with None => Ret _ Err | Some h =>
      bind (get (QTrie (h_state_root h))) (fun _ => Ret _ (executor_call evm (h_state_root h) (call_of h q) e)) end)) f)).
    { apply safe_bind.
      - destruct (ask_header v i n V U) as [Q1 Q2]. apply safe_bind; [exact Q1|]. intros [h|] j J E; [|done].
        apply safe_bind. { apply safe_get. cbn [Web3Model.answer]. by destruct (sn_trie _ _ _). }
        intros m k K _. unfold safe. cbn [Web3Model.exec]. unfold executor_call. destruct (evm _ _) as [[x d] g] eqn:EV.
        destruct e; [|done]. apply GB in EV. assert (g <= MAX_GAS_LIMIT).
        { etransitivity; [exact EV|]. cbn. destruct (cq_gas q); cbn in *; [done|lia]. }
        assert (g / 4 + g <? 2^64 = true) as ->; [|done]. apply N.ltb_lt. unfold MAX_GAS_LIMIT in *.
        assert (g / 4 <= g) by (apply N.div_le_upper_bound; lia). change (2^64) with 18446744073709551616. lia.
      - intros [[x d] g] j J E. apply F. intros SU.
        destruct (exec_bind keccak v i (get (QHeader n)) (fun o => match o with None => Ret _ Err | Some h =>
          bind (get (QTrie (h_state_root h))) (fun _ => Ret _ (executor_call evm (h_state_root h) (call_of h q) e)) end)) as (k & _ & EB).
        rewrite E in EB. destruct (exec v i (get (QHeader n))) as [[h|]| |]; try done.
        cbn [get bind Web3Model.exec] in EB. destruct (answer (v k) (QTrie _)) as [m| |]; try done. cbn [bind Web3Model.exec] in EB.
        unfold executor_call in EB. destruct (evm _ _) as [[x' d'] g'] eqn:EV.
        assert (x' = x /\ d' = d) as [-> ->]. { destruct e; [destruct (_ <? _); [|done]|]; injection EB; intros; subst; done. }
        apply (RW _ _ _ _ _ EV). intros r ->. done. }
    destruct (cq_from q), (cq_to q); try exact K. done.
  Qed.
  Lemma safe_call v q i : views v -> in_order v -> u64_id i -> gas_bounded -> reverts_well -> safe v 0 (eth_call evm q i).
  Proof using keccak evm.
    intros V O U GB RW. unfold eth_call. destruct (MAX_GAS_LIMIT <? _) eqn:G; [done|]. destruct (MAX_GAS_PRICE <? _); [done|].
    destruct (match cq_to q with Some a => _ | None => false end); [done|]. apply N.ltb_ge in G.
    destruct (safe_number v 0 i V U) as [S1 S2]. apply safe_bind; [done|]. intros n j J E.
    apply safe_call_evm; [done|done|by eapply S2|done|done|done|]. intros k x d g SM. destruct (succeeded x); [done|].
    unfold safe, evm_error. cbn [Web3Model.exec]. pose proof (decode_safe d (SM eq_refl)). by destruct (decode_revert d).
  Qed.
  Lemma safe_estimate v q i : views v -> in_order v -> u64_id i -> gas_bounded -> reverts_well -> safe v 0 (eth_estimateGas evm q i).
  Proof using keccak evm.
    intros V O U GB RW. unfold eth_estimateGas. destruct (match cq_gas q with Some g => _ | None => false end); [done|].
    destruct (MAX_GAS_LIMIT <? _) eqn:G; [done|]. destruct (MAX_GAS_PRICE <? _); [done|].
    destruct (match cq_to q with Some a => _ | None => false end); [done|]. apply N.ltb_ge in G.
    apply safe_call_evm; [done|done| |done|done|done|].
    - intros m M. destruct i as [[n| | | |]|]; try done. injection M as ->. by apply U.
    - intros k x d g SM. destruct (succeeded x); [done|].
      unfold safe, evm_error. cbn [Web3Model.exec]. pose proof (decode_safe d (SM eq_refl)). by destruct (decode_revert d).
  Qed.
  End Call.
  Section MerkleProof.
  Variable mpt_proof : bytes -> bytes -> list bytes.
  Lemma safe_proof v a ps i : views v -> in_order v -> u64_id (Some i) -> Forall (fun p => p < 2^256) ps -> safe v 0 (eth_getProof mpt_proof a ps i).
  Proof using keccak mpt_proof.
    intros V O U P. unfold eth_getProof. destruct (is_system_format a); [done|].
    destruct (safe_number v 0 (Some i) V U) as [S1 S2]. apply safe_bind; [done|]. intros n j J E.
    destruct (ask_header v j n V (S2 _ E)) as [Q1 Q2]. apply safe_bind; [exact Q1|]. intros [h|] k K E'; [|done].
    destruct (Q2 h E') as (b & B & KN).
    destruct (state_later v j k b V O K KN) as (w & (m & M & H) & _). rewrite B in M.
    unfold account_proof, safe. cbn [get bind Web3Model.exec Web3Model.answer]. rewrite M. cbn [bind]. specialize (H a).
    destruct (w a) as [x|]; [|by rewrite H]. destruct H as (r & -> & WF & t & T & SH). rewrite acct_roundtrip by done.
    destruct (views_later keccak v k (S k) V ltac:(lia)) as [_ TL]. destruct (TL _ _ T) as (t' & T' & KT).
    cbn [get bind Web3Model.exec Web3Model.answer ac_root]. rewrite T'. cbn [bind].
    rewrite (slot_proofs_spec keccak mpt_proof r t' (sa_slot x) ps P); [done|]. intros p Hp. rewrite KT. by apply SH.
  Qed.
  End MerkleProof.

  Section Raw.
  Variable recover : bytes -> bytes -> option bytes.
  (** What a submitted transaction must not be: empty, or signed by other means with an empty first half. *)
  Definition sane_raw (raw : bytes) : Prop :=
    raw <> [] /\ forall u g, dec_utx keccak raw = Ok u -> u_sig u = Some g -> sg_r g <> [].
  Lemma safe_raw v cap raw : in_order v -> sane_raw raw -> safe v 0 (eth_sendRawTransaction keccak recover cap raw).
  Proof using keccak recover.
    intros O [NE SR]. unfold eth_sendRawTransaction. destruct (dec_utx keccak raw) as [u| |] eqn:D; [|done|].
    2:{ unfold dec_utx in D. destruct raw as [|x raw]; [done|]. destruct (128 <=? x); [by destruct (dec_legacy _ _)|].
        destruct (x =? 1); [by destruct (dec_eip2930 _ _)|]. destruct (x =? 2); [by destruct (dec_eip1559 _ _)|done]. }
    destruct (gas_price _ =? 0); [done|]. destruct (MAX_GAS_PRICE <? _); [done|]. destruct (_ <? MIN_TX_GAS); [done|].
    destruct (cap <? _); [done|]. destruct (negb _); [done|].
    destruct (from_unverified keccak recover u) as [t| |] eqn:F; [|done|].
    - apply safe_bind; [apply safe_get; apply (io_admit v O)|done].
    - exfalso. unfold from_unverified in F. destruct (u_sig u) as [g|] eqn:G; [|done].
      assert (S : sender_of keccak recover u g <> Panic).
      { unfold sender_of. destruct (is_eth_sig g); [by destruct (recover _ _)|]. specialize (SR u g eq_refl G).
        unfold interop_sender. destruct (sg_r g) as [|x r]; [done|]. destruct x; [|done]. destruct (dec_cell_dep_with_pub_key r) as [[]|]; done. }
      destruct (sender_of keccak recover u g) as [[]| |]; done.
  Qed.
  End Raw.

  (** ** All requests *)
  Section All.
  Variable recover : bytes -> bytes -> option bytes.
  Variable evm : bytes -> xcall -> exit_reason * bytes * N.
  Variable mpt_proof : bytes -> bytes -> list bytes.
  Variable cap : N.

  Inductive request :=
  | RSendRaw (raw : bytes) | RTxByHash (x : bytes) | RBlockByNumber (i : bid) (rich : bool) | RBlockByHash (x : bytes) (rich : bool)
  | RNonce (a : bytes) (i : option bid) | RBlockNumber | RBalance (a : bytes) (i : option bid) | RCall (q : creq) (i : option bid)
  | REstimate (q : creq) (i : option bid) | RCode (a : bytes) (i : option bid) | RCountByNumber (i : bid) | RCountByHash (x : bytes)
  | RReceipt (x : bytes) | RTxByHashIndex (x : bytes) (pos : N) | RTxByNumberIndex (i : bid) (pos : N)
  | RStorage (a : bytes) (pos : N) (i : option bid) | RProof (a : bytes) (ps : list N) (i : bid).
  Definition crashes (v : nat -> snap) (r : request) : Prop :=
    match r with
    | RSendRaw raw => exec v 0 (eth_sendRawTransaction keccak recover cap raw) = Panic
    | RTxByHash x => exec v 0 (eth_getTransactionByHash x) = Panic
    | RBlockByNumber i rich => exec v 0 (eth_getBlockByNumber keccak i rich) = Panic
    | RBlockByHash x rich => exec v 0 (eth_getBlockByHash keccak x rich) = Panic
    | RNonce a i => exec v 0 (eth_getTransactionCount a i) = Panic
    | RBlockNumber => exec v 0 eth_blockNumber = Panic
    | RBalance a i => exec v 0 (eth_getBalance a i) = Panic
    | RCall q i => exec v 0 (eth_call evm q i) = Panic
    | REstimate q i => exec v 0 (eth_estimateGas evm q i) = Panic
    | RCode a i => exec v 0 (eth_getCode a i) = Panic
    | RCountByNumber i => exec v 0 (eth_getBlockTransactionCountByNumber i) = Panic
    | RCountByHash x => exec v 0 (eth_getBlockTransactionCountByHash x) = Panic
    | RReceipt x => exec v 0 (eth_getTransactionReceipt x) = Panic
    | RTxByHashIndex x pos => exec v 0 (eth_getTransactionByBlockHashAndIndex x pos) = Panic
    | RTxByNumberIndex i pos => exec v 0 (eth_getTransactionByBlockNumberAndIndex i pos) = Panic
    | RStorage a pos i => exec v 0 (eth_getStorageAt a pos i) = Panic
    | RProof a ps i => exec v 0 (eth_getProof mpt_proof a ps i) = Panic
    end.
  (** The ranges of the parameters' types: block numbers are u64, slots are 256-bit. *)
  Definition typed (r : request) : Prop :=
    match r with
    | RBlockByNumber i _ | RCountByNumber i | RTxByNumberIndex i _ => u64_id (Some i)
    | RNonce _ i | RBalance _ i | RCall _ i | REstimate _ i | RCode _ i => u64_id i
    | RStorage _ p i => u64_id i /\ p < 2^256
    | RProof _ ps i => u64_id (Some i) /\ Forall (fun p => p < 2^256) ps
    | _ => True
    end.
  (** The requests and calls that are not among the exceptions. *)
  Definition harmless (r : request) : Prop :=
    match r with
    | RSendRaw raw => sane_raw raw
    | RTxByHashIndex _ pos | RTxByNumberIndex _ pos => pos < 2^64
    | RCall _ _ | REstimate _ _ => reverts_well evm
    | _ => True
    end.
  Theorem C82_no_crash_partial : forall v r, views v -> in_order v -> gas_bounded evm -> typed r -> harmless r -> ~ crashes v r.
  Proof using All.
    intros v r V O GB T H.
    destruct r as [raw|x|i rich|x rich|a i| |a i|q i|q i|a i|i|x|x|x pos|i pos|a pos i|a ps i]; cbn [crashes typed harmless] in *.
    - by apply safe_raw.
    - by apply safe_tx.
    - destruct (ask_block v 0 (bid_number i) V) as [Q1 Q2]. { intros m M. destruct i; try done; injection M as <-; [by apply T|lia]. }
      apply safe_bind; [exact Q1|]. intros b j J E. apply safe_show; [done|done|]. intros b' ->. exists 0%nat. split; [lia|]. by apply Q2.
    - destruct (ask_by_hash v 0 x V) as [Q1 Q2].
      apply safe_bind; [exact Q1|]. intros b j J E. apply safe_show; [done|done|]. intros b' ->. exists 0%nat. split; [lia|]. by apply Q2.
    - by apply safe_nonce.
    - by apply safe_block_number.
    - by apply safe_balance.
    - by apply safe_call.
    - by apply safe_estimate.
    - by apply safe_code.
    - destruct (ask_block v 0 (bid_number i) V) as [Q1 Q2]. { intros m M. destruct i; try done; injection M as <-; [by apply T|lia]. }
      apply safe_bind; [exact Q1|]. done.
    - destruct (ask_by_hash v 0 x V) as [Q1 Q2]. apply safe_bind; [exact Q1|]. done.
    - by apply safe_receipt.
    - unfold eth_getTransactionByBlockHashAndIndex. destruct (2^64 - 1 <? pos) eqn:L; [apply N.ltb_lt in L; lia|].
      destruct (ask_by_hash v 0 x V) as [Q1 _]. apply safe_bind; [exact Q1|]. intros b j J E. by apply safe_at_index.
    - unfold eth_getTransactionByBlockNumberAndIndex. destruct (2^64 - 1 <? pos) eqn:L; [apply N.ltb_lt in L; lia|].
      destruct (ask_block v 0 (bid_number i) V) as [Q1 Q2]. { intros m M. destruct i; try done; injection M as <-; [by apply T|lia]. }
      apply safe_bind; [exact Q1|]. intros b j J E. by apply safe_at_index.
    - destruct T as [T P]. by apply safe_storage.
    - destruct T as [T P]. by apply safe_proof.
  Qed.
  End All.
End Crash.
Print Assumptions C82_no_crash_partial.
