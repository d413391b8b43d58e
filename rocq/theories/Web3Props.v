(** C79: the state queries of the RPC server answer from the block that was asked for. *)
From Verif Require Import Bytes BytesProofs Rlp RlpProofs TxModel TxSpec TxProofs StorageModel StorageProofs StorageProps BlockModel BlockProofs Web3Model.
From stdpp Require Import base gmap list.
From Coq Require Import Lia.
Local Open Scope N_scope.
Notation block := BlockModel.block (only parsing).

(* ------------------------------------------------------------------ *)
(** * Account codec *)

Definition wf_acct (a : acct) : Prop :=
  u256_ok (ac_nonce a) /\ u256_ok (ac_balance a) /\ fixed 32 (ac_root a) /\ fixed 32 (ac_code a).

Lemma enc_str_short b : (length b <= 55)%nat -> len (enc_str b) <= 56.
Proof.
  intros L. assert (H : len (enc_header 128 (len b) ++ b) <= 56).
  { unfold enc_header. destruct (len b <? 56) eqn:E; [unfold len in *; rewrite app_length; cbn [length]; lia|].
    apply N.ltb_ge in E. unfold len in E. lia. }
  unfold enc_str. destruct b as [|x [|y b]]; try exact H. destruct (x <? 128); [|exact H]. unfold len. cbn. lia.
Qed.
Lemma be_min_short n : n < 2^256 -> (length (be_min n) <= 32)%nat.
Proof.
  intros H. unfold be_min. rewrite be_fixed_length. unfold nbytes.
  assert (N.size n <= 256). { destruct (N.eq_dec n 0) as [->|Z]; [cbn; lia|]. rewrite N.size_log2 by done.
    assert (N.log2 n < 256); [|lia]. apply N.log2_lt_pow2; lia. }
  assert ((N.size n + 7) / 8 <= 32); [|lia]. apply N.lt_succ_r. apply N.div_lt_upper_bound; lia.
Qed.
Lemma acct_len a : wf_acct a -> len (concat [enc_uint (ac_nonce a); enc_uint (ac_balance a); enc_hash (ac_root a); enc_hash (ac_code a)]) < 2^64.
Proof.
  intros (W1 & W2 & [_ W3] & [_ W4]). unfold enc_uint, enc_hash. cbn [concat].
  unfold len. rewrite !app_length. cbn [length].
  pose proof (enc_str_short (be_min (ac_nonce a)) ltac:(pose proof (be_min_short _ W1); lia)).
  pose proof (enc_str_short (be_min (ac_balance a)) ltac:(pose proof (be_min_short _ W2); lia)).
  pose proof (enc_str_short (ac_root a) ltac:(lia)). pose proof (enc_str_short (ac_code a) ltac:(lia)).
  unfold len in *. lia.
Qed.
Lemma acct_roundtrip a : wf_acct a -> dec_acct (enc_acct a) = Some a.
Proof.
  intros W. pose proof (acct_len a W) as LC. destruct W as (W1 & W2 & W3 & W4). unfold enc_acct.
  set (items := [enc_uint (ac_nonce a); enc_uint (ac_balance a); enc_hash (ac_root a); enc_hash (ac_code a)]) in *.
  pose proof (codec_hash 32 ltac:(lia)) as C32.
  destruct (field _ _ _ items _ codec_u256 W1) as [I0 D0]; [unfold items; in_tac|exact LC|].
  destruct (field _ _ _ items _ codec_u256 W2) as [I1 D1]; [unfold items; in_tac|exact LC|].
  destruct (field _ _ _ items _ C32 W3) as [I2 D2]; [unfold items; in_tac|exact LC|].
  destruct (field _ _ _ items _ C32 W4) as [I3 D3]; [unfold items; in_tac|exact LC|].
  assert (Forall is_item items) as HI by (unfold items; repeat constructor; assumption).
  unfold dec_acct. rd 0%nat HI LC D0. rd 1%nat HI LC D1. rd 2%nat HI LC D2. rd 3%nat HI LC D3. by destruct a.
Qed.

Section Props.
  Variable keccak : bytes -> bytes.
  Notation W := (W keccak).
  Notation snap := (snap keccak).
  Notation num b := (h_number (b_header b)).
  Notation hash_of := (hash_of keccak).
  Notation exec := (exec keccak).
  Notation answer := (answer keccak).

  (* ------------------------------------------------------------------ *)
  (** * Specification *)

  (** The node moves on: blocks, transactions and receipts are added, never taken away, and a trie
      keeps its content under its root. *)
  Definition later (s s' : snap) : Prop :=
    (exists l, sn_store _ s' = l ++ sn_store _ s) /\
    forall r m, sn_trie _ s r = Some m -> exists m', sn_trie _ s' r = Some m' /\ forall k, m' k = m k.
  Definition views (v : nat -> snap) : Prop :=
    (forall i, Forall (wf_event W) (sn_store _ (v i)) /\ single_valued W (sn_store _ (v i))) /\
    forall i, later (v i) (v (S i)).

  (** Which block a block parameter names. *)
  Definition saved (s : snap) (b : block) : Prop := ESave W b ∈ sn_store _ s \/ ESet W b ∈ sn_store _ s.
  Inductive names (s : snap) : option bid -> block -> Prop :=
  | names_number b : saved s b -> names s (Some (BNum (num b))) b
  | names_earliest b : saved s b -> num b = 0 -> names s (Some BEarliest) b
  | names_hash b : saved s b -> names s (Some (BHash (hash_of b))) b
  | names_latest i b : i ∈ [None; Some BLatest; Some BPending] -> latest_at W (sn_store _ s) = Some b -> names s i b.

  (** The accounts of a state, and the tries that hold them. *)
  Record sacct := SAcct { sa_nonce : N; sa_balance : N; sa_code : bytes; sa_slot : N -> N }.
  Definition empty_acct : sacct := SAcct 0 0 NIL_DATA (fun _ => 0).
  Definition wstate := bytes -> option sacct.
  Definition acct_of (w : wstate) (a : bytes) : sacct := default empty_acct (w a).
  Definition slots_held (s : snap) (r : bytes) (f : N -> N) : Prop :=
    exists t, sn_trie _ s r = Some t /\ forall p, p < 2^256 ->
      match t (be_fixed 32 p) with None => f p = 0 | Some raw => raw = enc_uint (f p) /\ f p < 2^256 end.
  Definition held (s : snap) (root : bytes) (w : wstate) : Prop :=
    exists m, sn_trie _ s root = Some m /\
    forall a, match w a with
    | None => m a = None
    | Some x => exists r, m a = Some (enc_acct (Acct (sa_nonce x) (sa_balance x) r (sa_code x))) /\
        wf_acct (Acct (sa_nonce x) (sa_balance x) r (sa_code x)) /\ slots_held s r (sa_slot x)
    end.
  (** The state after a block. *)
  Definition state_of (s : snap) (b : block) (w : wstate) : Prop := held s (h_state_root (b_header b)) w.

  (* ------------------------------------------------------------------ *)
  (** * Programs *)

  Lemma exec_bind {A B} v i (p : prog A) (f : A -> prog B) :
    exists j, (i <= j)%nat /\ exec v i (bind p f) =
      match exec v i p with Ok a => exec v j (f a) | Err => Err | Panic => Panic end.
  Proof using.
    revert i. induction p as [[a| |]|B' q k IH]; intros i; cbn; try (exists i; by split; [lia|]).
    destruct (IH (answer (v i) q) (S i)) as (j & J & E). exists j. split; [lia|exact E].
  Qed.
  Lemma exec_or_else {A} v i (p : prog A) d :
    exec v i (or_else p d) = match exec v i p with Err => Ok d | o => o end.
  Proof using. revert i. induction p as [[a| |]|B' q k IH]; intros i; cbn; auto. Qed.
  Lemma exec_get {A B} v i (q : ask A) (f : A -> prog B) a :
    answer (v i) q = Ok a -> exec v i (bind (get q) f) = exec v (S i) (f a).
  Proof using. intros E. cbn. by rewrite E. Qed.
  Lemma exec_get_err {A B} v i (q : ask A) (f : A -> prog B) :
    answer (v i) q = Err -> exec v i (bind (get q) f) = Err.
  Proof using. intros E. cbn. by rewrite E. Qed.

  Lemma later_refl s : later s s.
  Proof using. split; [by exists []|]. intros r m E. exists m. auto. Qed.
  Lemma later_trans a b c : later a b -> later b c -> later a c.
  Proof using.
    intros [[l E] T] [[l' E'] T']. split.
    - exists (l' ++ l). rewrite E', E. by rewrite (assoc_L (++)).
    - intros r m H. destruct (T r m H) as (m1 & H1 & K1). destruct (T' r m1 H1) as (m2 & H2 & K2).
      exists m2. split; [done|]. intros k. by rewrite K2.
  Qed.
  Lemma views_later v i j : views v -> (i <= j)%nat -> later (v i) (v j).
  Proof using.
    intros [_ L] H. induction H as [|j H IH]; [apply later_refl|]. eapply later_trans; [exact IH|apply L].
  Qed.
  Lemma saved_later s s' b : later s s' -> saved s b -> saved s' b.
  Proof using. intros [[l E] _] [H|H]; [left|right]; rewrite E; apply elem_of_app; by right. Qed.
  Lemma held_later s s' r w : later s s' -> held s r w ->
    exists m, sn_trie _ s' r = Some m /\
    forall a, match w a with
    | None => m a = None
    | Some x => exists r, m a = Some (enc_acct (Acct (sa_nonce x) (sa_balance x) r (sa_code x))) /\
        wf_acct (Acct (sa_nonce x) (sa_balance x) r (sa_code x)) /\ slots_held s r (sa_slot x)
    end.
  Proof using.
    intros [_ T] (m & E & H). destruct (T r m E) as (m' & E' & K). exists m'. split; [done|].
    intros a. specialize (H a). by rewrite K.
  Qed.

  (** A block number, or its absence, selects the block at view [j]. *)
  Definition selects (v : nat -> snap) (j : nat) (n : option N) (b : block) : Prop :=
    answer (v j) (QBlock n) = Ok (Some b) /\ answer (v j) (QHeader n) = Ok (Some (b_header b)).
  Lemma selects_saved v j b : views v -> saved (v j) b -> selects v j (Some (num b)) b.
  Proof using.
    intros [V _] H. destruct (V j) as [WF SV]. destruct (C32_block_roundtrip W _ b WF SV H) as (E1 & E2 & _).
    split; cbn [answer Web3Model.answer]; [exact E1|exact E2].
  Qed.
  Lemma selects_latest v j b : views v -> latest_at W (sn_store _ (v j)) = Some b -> selects v j None b.
  Proof using.
    intros [V _] H. destruct (V j) as [WF _]. destruct (C32_latest W _ WF) as (E1 & E2 & _). rewrite H in E1, E2.
    split; cbn [Web3Model.answer]; unfold store; [by rewrite E1|by rewrite E2].
  Qed.
  Lemma resolve {A} v i b (k : option N -> prog A) o : views v -> names (v 0%nat) i b ->
    (forall n j, selects v j n b -> exec v j (k n) = o) ->
    exec v 0 (bind (number_by_id i) k) = o.
  Proof using.
    intros V N K. destruct N as [b H|b H Z|b H|i b I H]; unfold number_by_id; cbn [default bid_number from_option id].
    - apply K. by apply selects_saved.
    - apply K. cbn. rewrite <- Z. by apply selects_saved.
    - rewrite (exec_get v 0 _ _ (Some (num b))).
      2:{ cbn [Web3Model.answer]. destruct V as [V _]. destruct (V 0%nat) as [WF SV].
          destruct (C32_block_roundtrip W _ b WF SV H) as (_ & _ & E & _). cbn in E. unfold store. by rewrite E. }
      apply K. apply selects_saved; [done|]. apply (saved_later (v 0%nat)); [by apply views_later; [|lia]|done].
    - assert (E : exec v 0 (k None) = o) by (apply K; by apply selects_latest).
      rewrite !elem_of_cons, elem_of_nil in I. destruct I as [->|[->|[->|[]]]]; exact E.
  Qed.

  Lemma selects_account {A} v j n b w a (f : acct -> prog A) o : views v -> selects v j n b -> state_of (v 0%nat) b w ->
    (forall r, (forall x, w a = Some x -> slots_held (v 0%nat) r (sa_slot x)) ->
      exec v (S (S j)) (f (Acct (sa_nonce (acct_of w a)) (sa_balance (acct_of w a)) r (sa_code (acct_of w a)))) = o) ->
    exec v j (bind (get_account a n) f) = o.
  Proof using.
    intros V [S1 _] H K. unfold get_account. cbn [get bind Web3Model.exec]. rewrite S1. cbn [bind Web3Model.exec].
    destruct (held_later _ (v (S j)) _ _ (views_later v 0 (S j) V ltac:(lia)) H) as (m & M & HA).
    cbn [Web3Model.answer]. rewrite M. cbn [bind]. specialize (HA a). unfold acct_of in *.
    destruct (w a) as [x|].
    - destruct HA as (r & E & WFA & SH). rewrite E. rewrite acct_roundtrip by done. cbn. apply K. intros ? [= <-]. done.
    - rewrite HA. cbn. apply K. done.
  Qed.

  (* ------------------------------------------------------------------ *)
  (** * C79 *)

  Theorem C79_balance : forall v i b w a, views v -> names (v 0%nat) i b -> state_of (v 0%nat) b w ->
    exec v 0 (eth_getBalance a i) = Ok (sa_balance (acct_of w a)).
  Proof using.
    intros v i b w a V N H. apply (resolve v i b); [done|done|]. intros n j S. rewrite exec_or_else.
    rewrite (selects_account v j n b w a _ (Ok (sa_balance (acct_of w a)))); done.
  Qed.

  Theorem C79_nonce : forall v i b w a, views v -> names (v 0%nat) i b -> i <> Some BPending -> state_of (v 0%nat) b w ->
    exec v 0 (eth_getTransactionCount a i) = Ok (sa_nonce (acct_of w a)).
  Proof using.
    intros v i b w a V N P H.
    assert (K : forall n j, selects v j n b -> exec v j (or_else (bind (get_account a n) (fun ac => ret (ac_nonce ac))) 0) = Ok (sa_nonce (acct_of w a))).
    { intros n j S. rewrite exec_or_else. rewrite (selects_account v j n b w a _ (Ok (sa_nonce (acct_of w a)))); done. }
    pose proof (resolve v i b _ _ V N K) as R. unfold eth_getTransactionCount.
    destruct i as [[n|x| | |]|]; try exact R. done.
  Qed.

  (** The code is the one stored under the account's code hash; an account without code answers the empty string. *)
  Theorem C79_code : forall v i b w a ca c, views v -> names (v 0%nat) i b -> state_of (v 0%nat) b w ->
    ECode W ca (sa_code (acct_of w a)) c ∈ sn_store _ (v 0%nat) -> length (sa_code (acct_of w a)) = 32%nat ->
    exec v 0 (eth_getCode a i) = Ok c.
  Proof using.
    intros v i b w a ca c V N H C L. apply (resolve v i b); [done|done|]. intros n j S.
    apply (selects_account v j n b w a); [done..|]. intros r _. cbn [get bind Web3Model.exec ac_code Web3Model.answer].
    destruct (views_later v 0 (Datatypes.S (Datatypes.S j)) V ltac:(lia)) as [[l E] _].
    destruct V as [V _]. destruct (V (Datatypes.S (Datatypes.S j))) as [WF SV].
    destruct (C32_code_roundtrip W _ ca (sa_code (acct_of w a)) c WF SV) as [G _].
    { rewrite E. apply elem_of_app. by right. } { done. }
    unfold store. rewrite G. done.
  Qed.

  Theorem C79_storage : forall v i b w a p, views v -> names (v 0%nat) i b -> state_of (v 0%nat) b w ->
    is_system_format a = false -> p < 2^256 ->
    exec v 0 (eth_getStorageAt a p i) = Ok (be_fixed 32 (sa_slot (acct_of w a) p)).
  Proof using.
    intros v i b w a p V N H F P. unfold eth_getStorageAt. rewrite F. apply (resolve v i b); [done|done|]. intros n j [_ S].
    rewrite (exec_get v j _ _ _ S). rewrite exec_or_else. unfold storage_at.
    destruct (held_later _ (v (Datatypes.S j)) _ _ (views_later v 0 (Datatypes.S j) V ltac:(lia)) H) as (m & M & HA).
    cbn [get bind Web3Model.exec Web3Model.answer]. rewrite M. specialize (HA a). unfold acct_of. destruct (w a) as [x|].
    - destruct HA as (r & E & WFA & SH). cbn [bind]. rewrite E, acct_roundtrip by done.
      cbn [get bind Web3Model.exec Web3Model.answer ac_root default from_option id].
      destruct SH as (t & T & SH).
      destruct (views_later v 0 (Datatypes.S (Datatypes.S j)) V ltac:(lia)) as [_ TT].
      destruct (TT r t T) as (t' & T' & K). rewrite T'. cbn [bind]. specialize (SH p P). rewrite K.
      destruct (t (be_fixed 32 p)) as [raw|].
      + destruct SH as [-> B]. rewrite dec_uint_enc; [done|exact B|lia].
      + rewrite SH. cbn. done.
    - cbn [bind]. rewrite HA. cbn. done.
  Qed.
  Theorem C79_block_number : forall v b, views v -> latest_at W (sn_store _ (v 0%nat)) = Some b ->
    exec v 0 eth_blockNumber = Ok (num b).
  Proof using.
    intros v b V L. destruct (selects_latest v 0 b V L) as [_ S]. unfold eth_blockNumber. by rewrite (exec_get v 0 _ _ _ S).
  Qed.

  (** ** eth_call and eth_estimateGas *)
  Section Call.
  Variable evm : bytes -> xcall -> exit_reason * bytes * N.

  (** The call runs in the named block's state and context; origin, price, gas, base fee and chain id are the
      request's where it gives them. *)
  Record context_of (b : block) (q : creq) (k : xcall) : Prop := {
    cx_number : k_number k = num b;
    cx_coinbase : k_coinbase k = h_proposer (b_header b);
    cx_time : k_time k = h_timestamp (b_header b);
    cx_chain : k_chain k = match cq_chain q with Some c => c | None => h_chain_id (b_header b) end;
    cx_origin : k_origin k = match cq_from q with Some a => a | None => repeat 0 20 end;
    cx_price : k_price k = match cq_price q with Some p => p | None => 1 end;
    cx_block_gas : k_block_gas k = match cq_gas q with Some g => g | None => h_gas_limit (b_header b) end;
    cx_base_fee : k_base_fee k = match cq_max_fee q with Some f => f | None => h_base_fee (b_header b) end;
    cx_extra : k_extra k = [];
    cx_gas : k_gas k = match cq_gas q with Some g => g | None => 30000000 end;
    cx_from : k_from k = cq_from q; cx_to : k_to k = cq_to q;
    cx_value : k_value k = match cq_value q with Some x => x | None => 0 end;
    cx_data : k_data k = match cq_data q with Some x => x | None => [] end }.
  Lemma context_unique b q k : context_of b q k -> k = call_of (b_header b) q.
  Proof using keccak evm.
    intros []. destruct k. cbn in *. subst. unfold call_of. by destruct (cq_chain q), (cq_from q), (cq_price q), (cq_gas q), (cq_max_fee q), (cq_value q), (cq_data q).
  Qed.

  (** What both methods accept. *)
  Record call_allowed (q : creq) : Prop := {
    ca_party : cq_from q <> None \/ cq_to q <> None;
    ca_gas : forall g, cq_gas q = Some g -> g <= 30000000;
    ca_price : forall p, cq_price q = Some p -> p <= 500000000000;
    ca_to : forall a, cq_to q = Some a -> firstn 19 a <> repeat 255 19 }.
  Lemma allowed_tests q : call_allowed q ->
    (MAX_GAS_LIMIT <? default 0 (cq_gas q)) = false /\ (MAX_GAS_PRICE <? default 0 (cq_price q)) = false /\
    match cq_to q with Some a => is_system_format a | None => false end = false.
  Proof using keccak evm.
    intros [P G R T]. split; [|split].
    - apply N.ltb_ge. destruct (cq_gas q) as [g|]; cbn; [by apply G|]. unfold MAX_GAS_LIMIT; lia.
    - apply N.ltb_ge. change MAX_GAS_PRICE with 500000000000. destruct (cq_price q) as [g|]; cbn; [by apply R|lia].
    - destruct (cq_to q) as [a|]; [|done]. unfold is_system_format. destruct (beqb _ _) eqn:B; [|done].
      apply beqb_eq in B. by apply T in B.
  Qed.
  Lemma run_call {A} v j n b q est (f : exit_reason * bytes * N -> prog A) m : views v -> selects v j n b -> call_allowed q ->
    sn_trie _ (v 0%nat) (h_state_root (b_header b)) = Some m ->
    exec v j (bind (call_evm evm q n est) f) =
    match executor_call evm (h_state_root (b_header b)) (call_of (b_header b) q) est with
    | Ok r => exec v (S (S j)) (f r) | Err => Err | Panic => Panic end.
  Proof using keccak evm.
    intros V [_ S1] [P _ _ _] M. unfold call_evm.
    assert (K : exec v j (bind (bind (get (QHeader n)) (fun o => match o with None => Ret _ Err | Some h =>
        bind (get (QTrie (h_state_root h))) (fun _ => Ret _ (executor_call evm (h_state_root h) (call_of h q) est)) end)) f) =
      match executor_call evm (h_state_root (b_header b)) (call_of (b_header b) q) est with
      | Ok r => exec v (S (S j)) (f r) | Err => Err | Panic => Panic end).
    { cbn [get bind Web3Model.exec]. rewrite S1. cbn [bind Web3Model.exec Web3Model.answer].
      destruct (views_later v 0 (S j) V ltac:(lia)) as [_ T1]. destruct (T1 _ _ M) as (m1 & M1 & _). rewrite M1. cbn [bind Web3Model.exec].
      by destruct (executor_call _ _ _ _) as [r| |]. }
    destruct (cq_from q); [exact K|]. destruct (cq_to q); [exact K|]. destruct P; done.
  Qed.

  Theorem C79_call : forall v i b q k x d g m, views v -> names (v 0%nat) i b -> call_allowed q ->
    sn_trie _ (v 0%nat) (h_state_root (b_header b)) = Some m ->
    context_of b q k -> evm (h_state_root (b_header b)) k = (x, d, g) ->
    match x with
    | XSucceed _ => exec v 0 (eth_call evm q i) = Ok d
    | _ => forall d', exec v 0 (eth_call evm q i) <> Ok d'
    end.
  Proof using keccak evm.
    intros v i b q k x d g m V N A M C E. rewrite (context_unique _ _ _ C) in E. unfold eth_call.
    destruct (allowed_tests q A) as (-> & -> & ->).
    assert (R : exec v 0 (bind (number_by_id i) (fun n => bind (call_evm evm q n false) (fun r => let '(x, d, _) := r in
      if succeeded x then ret d else Ret _ (evm_error d)))) = if succeeded x then Ok d else evm_error d).
    { apply (resolve v i b); [done|done|]. intros n j S. rewrite (run_call v j n b q false _ m V S A M).
      unfold executor_call. rewrite E. by destruct (succeeded x). }
    rewrite R. destruct x; cbn [succeeded]; try done; intros d'; unfold evm_error; by destruct (decode_revert d).
  Qed.

  (** The estimate is the used gas and a quarter; it reads the block only from an explicit number. *)
  Theorem C79_estimate : forall v i b q k x d g m, views v -> names (v 0%nat) i b ->
    (forall y, i <> Some (BHash y)) -> i <> Some BEarliest ->
    call_allowed q -> (forall g, cq_gas q = Some g -> 21000 <= g) ->
    sn_trie _ (v 0%nat) (h_state_root (b_header b)) = Some m ->
    context_of b q k -> evm (h_state_root (b_header b)) k = (x, d, g) -> g <= 30000000 ->
    match x with
    | XSucceed _ => exec v 0 (eth_estimateGas evm q i) = Ok (g / 4 + g)
    | _ => forall d', exec v 0 (eth_estimateGas evm q i) <> Ok d'
    end.
  Proof using keccak evm.
    intros v i b q k x d g m V N NH NE A LO M C E G. rewrite (context_unique _ _ _ C) in E. unfold eth_estimateGas.
    destruct (allowed_tests q A) as (-> & -> & ->).
    assert (match cq_gas q with Some g => g <? MIN_TX_GAS | None => false end = false) as ->.
    { destruct (cq_gas q) as [g'|]; [|done]. apply N.ltb_ge. by apply LO. }
    assert (S : selects v 0 (match i with Some (BNum n) => Some n | _ => None end) b).
    { destruct N as [b H|b H Z|b H|i b I H]; [by apply selects_saved|done|by destruct (NH (hash_of b))|].
      rewrite !elem_of_cons, elem_of_nil in I. destruct I as [->|[->|[->|[]]]]; by apply selects_latest. }
    rewrite (run_call v 0 _ b q true _ m V S A M).
    unfold executor_call. rewrite E. assert (L : (g / 4 + g <? 2^64) = true).
    { apply N.ltb_lt. assert (g / 4 <= g) by (apply N.div_le_upper_bound; lia). lia. }
    rewrite L. destruct x; cbn [succeeded]; try done; intros d'; cbn; unfold evm_error; by destruct (decode_revert d).
  Qed.

  End Call.

  (** ** eth_getProof *)
  Section MerkleProof.
  Variable mpt_proof : bytes -> bytes -> list bytes.

  Lemma slot_proofs_spec r t f ps : Forall (fun p => p < 2^256) ps ->
    (forall p, p < 2^256 -> match t (be_fixed 32 p) with None => f p = 0 | Some raw => raw = enc_uint (f p) /\ f p < 2^256 end) ->
    slot_proofs mpt_proof r t ps = Ok (map (fun p => (p, f p, mpt_proof r (be_fixed 32 p))) ps).
  Proof using keccak mpt_proof.
    intros P H. induction P as [|p ps P1 P IH]; [done|]. cbn [slot_proofs map]. specialize (H p P1).
    destruct (t (be_fixed 32 p)) as [raw|].
    - destruct H as [-> B]. rewrite dec_uint_enc; [by rewrite IH|exact B|lia].
    - rewrite H. by rewrite IH.
  Qed.

  (** The answer carries the account and the slots of the named block, with the trie's proofs for exactly these keys. *)
  Theorem C79_proof : forall v i b w a ps, views v -> names (v 0%nat) (Some i) b -> state_of (v 0%nat) b w ->
    is_system_format a = false -> Forall (fun p => p < 2^256) ps ->
    match w a with
    | Some x => exists m root, sn_trie _ (v 0%nat) (h_state_root (b_header b)) = Some m /\
        m a = Some (enc_acct (Acct (sa_nonce x) (sa_balance x) root (sa_code x))) /\
        exec v 0 (eth_getProof mpt_proof a ps i) =
        Ok (WProof a (sa_balance x) (sa_code x) (sa_nonce x) root (mpt_proof (h_state_root (b_header b)) a)
              (map (fun p => (p, sa_slot x p, mpt_proof root (be_fixed 32 p))) ps))
    | None => exec v 0 (eth_getProof mpt_proof a ps i) =
        Ok (WProof a 0 (repeat 0 32) 0 (repeat 0 32) (mpt_proof (h_state_root (b_header b)) a) (map (fun p => (p, 0, [])) ps))
    end.
  Proof using keccak mpt_proof.
    intros v i b w a ps V N H F P. unfold eth_getProof. rewrite F.
    assert (R : forall o, (forall n j, selects v j n b -> exec v j (bind (get (QHeader n)) (fun o => match o with None => Ret _ Err | Some h => account_proof mpt_proof a ps (h_state_root h) end)) = o) ->
      exec v 0 (bind (number_by_id (Some i)) (fun n => bind (get (QHeader n)) (fun o => match o with None => Ret _ Err | Some h => account_proof mpt_proof a ps (h_state_root h) end))) = o).
    { intros o K. by apply (resolve v (Some i) b). }
    destruct (w a) as [x|] eqn:X.
    - assert (HA := H). destruct HA as (m & M & HA). specialize (HA a). rewrite X in HA. destruct HA as (r & E & WFA & t & T & SH).
      exists m, r. split; [done|]. split; [done|]. apply R. intros n j [_ S]. rewrite (exec_get v j _ _ _ S). unfold account_proof.
      destruct (views_later v 0 (Datatypes.S j) V ltac:(lia)) as [_ T1]. destruct (T1 _ _ M) as (m1 & M1 & K1).
      cbn [get bind Web3Model.exec Web3Model.answer]. rewrite M1. cbn [bind]. rewrite K1, E, acct_roundtrip by done.
      cbn [get bind Web3Model.exec Web3Model.answer ac_root].
      destruct (views_later v 0 (Datatypes.S (Datatypes.S j)) V ltac:(lia)) as [_ T2]. destruct (T2 _ _ T) as (t2 & M2 & K2).
      rewrite M2. cbn [bind].
      rewrite (slot_proofs_spec r t2 (sa_slot x) ps P); [done|]. intros p Hp. rewrite K2. by apply SH.
    - apply R. intros n j [_ S]. rewrite (exec_get v j _ _ _ S). unfold account_proof.
      destruct (held_later _ (v (Datatypes.S j)) _ _ (views_later v 0 (Datatypes.S j) V ltac:(lia)) H) as (m & M & HA).
      specialize (HA a). rewrite X in HA. cbn [get bind Web3Model.exec Web3Model.answer]. rewrite M. cbn [bind]. by rewrite HA.
  Qed.

  End MerkleProof.
End Props.
Print Assumptions C79_balance.
Print Assumptions C79_nonce.
Print Assumptions C79_code.
Print Assumptions C79_storage.
Print Assumptions C79_block_number.
Print Assumptions C79_call.
Print Assumptions C79_estimate.
Print Assumptions C79_proof.
