(** C98: a block hash stands for one block, with its transactions and the outcome of each, and a transaction or a receipt can be proved against it. *)
From Verif Require Import Bytes BytesProofs Rlp RlpProofs TxModel TxSpec TxProofs TxProps BlockModel BlockProofs BlockProps BloomModel BloomProofs Keccak
  TrieModel TrieProofs TrieCodec TrieOps TrieDelete TriePaths TrieProps TrieProps2 CommitModel.
From Coq Require Import NArith List Lia.
Import ListNotations.
Local Open Scope N_scope.

(* ================= specification ================= *)
(** What a receipt says about a transaction: its type, whether it succeeded, the gas, the logs. *)
Record outcome_of := Outcome { o_type : N; o_succeeded : bool; o_gas : N; o_logs : list log }.
Definition told (tr : stx * tx_resp) : outcome_of :=
  Outcome (match u_unsigned (s_tx (fst tr)) with Legacy _ => 0 | Eip2930 _ => 1 | Eip1559 _ => 2 end)
    (match x_exit (snd tr) with XSucceed _ => true | _ => false end) (x_gas_used (snd tr)) (x_logs (snd tr)).
(** Receipts as Ethereum has them (EIP-658, 2718): the gas is that of the block up to and including the transaction. *)
Fixpoint cumulative (sofar : N) (l : list (stx * tx_resp)) : list (stx * tx_resp) :=
  match l with
  | [] => []
  | (t, r) :: q => let g := sofar + x_gas_used r in
      (t, TxResp_ (x_exit r) (x_ret r) g (x_remain_gas r) (x_fee_cost r) (x_logs r) (x_code_address r) (x_removed r)) :: cumulative g q
  end.
(** Sizes: transactions that came through [from_unverified], hashes of 32 bytes, 64 bit gas, receipts below 4 GB. *)
Definition sent (keccak : bytes -> bytes) recover (st : stx) : Prop :=
  exists t, wf_signed_utx t /\ len (enc_utx t) < 2 ^ 64 /\ from_unverified keccak recover t = Ok st.
Definition result_ok (r : tx_resp) : Prop := u64_ok (x_gas_used r) /\ Forall wf_log (x_logs r) /\ len (enc_list (map enc_log (x_logs r))) < 2 ^ 31.

(* ================= proofs ================= *)
Section Commit.
  Variable keccak : bytes -> bytes.
  Variable recover : bytes -> bytes -> option bytes.
  Hypothesis keccak_32 : forall b, length (keccak b) = 32%nat.
  Hypothesis keccak_wf : forall b, wf_bytes (keccak b).
  Hypothesis keccak_null : keccak [128] = RLP_NULL.
  Hypothesis keccak_nil : keccak [192] = RLP_EMPTY_LIST.
  Variable f : nat.
  Hypothesis Lf : (fuel 17 <= f)%nat.
  (** the node encodings of the tree over a list *)
  Definition nodes (items : list bytes) : list bytes := written keccak f fresh (puts 0 items ++ [Commit]).
  Local Notation tells_apart := (tells_apart keccak).
  Local Notation list_root := (list_root keccak f).
  Local Notation transactions_root := (transactions_root keccak f).
  Local Notation receipts_root := (receipts_root keccak f).
  Local Notation encode_receipts := (encode_receipts keccak).

  Lemma root_nil : merkle_root keccak f [] = Ok RLP_NULL.
  Proof.
    unfold merkle_root. cbn [merkle_from obnd]. unfold trie_root, trie_new. cbn [tr_root encode_raw put_all fold_left fst snd tr_db].
    unfold TrieModel.recover, db_insert. rewrite beqb_refl. cbn [opt_err obnd]. change (decode [128]) with (@Ok node Empty). cbn [obnd fst]. now rewrite keccak_null.
  Qed.
  Lemma apart_l a b : tells_apart (a ++ b) -> tells_apart a.
  Proof. intros T x y X Y. apply T; apply in_app_iff; now left. Qed.
  Lemma apart_r a b : tells_apart (a ++ b) -> tells_apart b.
  Proof. intros T x y X Y. apply T; apply in_app_iff; now right. Qed.
  Lemma list_root_ok items : items_ok items -> tells_apart (nodes items) ->
    exists r, list_root items = Ok r /\ merkle_root keccak f items = Ok r /\ root_after keccak f (puts 0 items) = Ok r.
  Proof.
    intros O T. destruct (C91_list_root keccak keccak_32 keccak_wf f items Lf O T) as (r & E & R). exists r. split; [|now split].
    unfold CommitModel.list_root. destruct items; [|now rewrite E]. rewrite root_nil in E. exact E.
  Qed.
  Lemma list_root_inj xs ys r : items_ok xs -> items_ok ys -> tells_apart (nodes xs ++ nodes ys) -> list_root xs = Ok r -> list_root ys = Ok r -> xs = ys.
  Proof.
    intros X Y T EX EY. destruct (list_root_ok xs X (apart_l _ _ T)) as (a & A1 & A2 & _). destruct (list_root_ok ys Y (apart_r _ _ T)) as (b & B1 & B2 & _).
    apply (C91_list_binding keccak keccak_32 keccak_wf f xs ys Lf X Y T). congruence.
  Qed.

  (* ---------------- the root of the transactions ---------------- *)
  Definition hashes_ok (l : list bytes) : Prop := Forall (fixed 32) l /\ N.of_nat (length l) < 2 ^ 64.
  Lemma hash_items l : hashes_ok l -> items_ok (map enc_hash l).
  Proof.
    intros [F B]. split; [|now rewrite map_length]. apply Forall_map. apply Forall_forall. intros h H. rewrite Forall_forall in F. destruct (F h H) as [W L].
    assert (E : len h = 32) by (unfold len; now rewrite L). unfold enc_hash.
    split; [apply enc_str_nonnil|]. split; [apply enc_str_wf; [exact W|lia]|]. pose proof (enc_str_max h ltac:(lia)). lia.
  Qed.
  Lemma enc_hash_inj a b : fixed 32 a -> fixed 32 b -> enc_hash a = enc_hash b -> a = b.
  Proof. intros A B E. pose proof (dec_fixed 32 a A ltac:(lia)) as D. rewrite E, (dec_fixed 32 b B ltac:(lia)) in D. congruence. Qed.
  Lemma map_inj_on {A B} (g : A -> B) (P : A -> Prop) : (forall x y, P x -> P y -> g x = g y -> x = y) ->
    forall l m, Forall P l -> Forall P m -> map g l = map g m -> l = m.
  Proof.
    intros I. induction l as [|x l IH]; intros [|y m] L M E; cbn in E; try discriminate E; [reflexivity|]. injection E as E1 E2.
    inversion L; inversion M; subst. f_equal; auto.
  Qed.
  (** Every list of hashes has a root, and never the root of another list: the node does not crash on it, and the header says which transactions in which order. *)
  Theorem C98_transactions : forall l, hashes_ok l -> tells_apart (nodes (map enc_hash l)) ->
    exists r, transactions_root l = Ok r /\
      forall m, hashes_ok m -> tells_apart (nodes (map enc_hash l) ++ nodes (map enc_hash m)) -> transactions_root m = Ok r -> m = l.
  Proof.
    intros l L T. destruct (list_root_ok _ (hash_items l L) T) as (r & E & _). exists r. split; [exact E|]. intros m M T2 EM.
    symmetry. apply (map_inj_on enc_hash (fixed 32) enc_hash_inj); [apply L|apply M|]. exact (list_root_inj _ _ r (hash_items l L) (hash_items m M) T2 E EM).
  Qed.

  (* ---------------- the signed transactions ---------------- *)
  Lemma signed_digest l : digest_signed_transactions keccak l = keccak (enc_batch l).
  Proof. destruct l; [|reflexivity]. unfold digest_signed_transactions. rewrite <- keccak_nil. reflexivity. Qed.
  (** The digest of the signed transactions says what each of them is, with its signature, hash and sender. *)
  Theorem C98_signed : forall l m, Forall (sent keccak recover) l -> Forall (sent keccak recover) m ->
    len (enc_batch l) < 2 ^ 64 -> len (enc_batch m) < 2 ^ 64 -> tells_apart [enc_batch l; enc_batch m] ->
    digest_signed_transactions keccak l = digest_signed_transactions keccak m -> l = m.
  Proof.
    intros l m FL FM LL LM T E. rewrite !signed_digest in E. apply T in E; [|now left|now right; left].
    rewrite Forall_forall in FL, FM. pose proof (C01_batch_roundtrip keccak recover l FL LL) as D. rewrite E, (C01_batch_roundtrip keccak recover m FM LM) in D. congruence.
  Qed.

  (* ---------------- the root of the receipts ---------------- *)
  Definition receipt_list (r : tx_resp) : list bytes :=
    [enc_uint (receipt_status (x_exit r)); enc_uint (x_gas_used r); enc_hash (logs_bloom keccak (x_logs r)); enc_list (map enc_log (x_logs r))].
  (** A receipt is encoded as Ethereum prescribes, but for its gas: behind the type of a typed transaction, a list of the status (the byte 1
      of a success, the empty string of any other end), the gas, the bloom filter and the logs. *)
  Theorem C98_receipt : forall u r bloom, exists body, encode_receipt u r bloom = (match u with Legacy _ => [] | Eip2930 _ => [1] | Eip1559 _ => [2] end) ++ body /\
    body = enc_list [if match x_exit r with XSucceed _ => true | _ => false end then [1] else [128]; enc_uint (x_gas_used r); enc_hash bloom; enc_list (map enc_log (x_logs r))].
  Proof.
    intros u r bloom. eexists. split; [|reflexivity]. unfold encode_receipt. destruct u; destruct (x_exit r); reflexivity.
  Qed.
  Definition enc1 (tr : stx * tx_resp) : bytes := encode_receipt (u_unsigned (s_tx (fst tr))) (snd tr) (logs_bloom keccak (x_logs (snd tr))).
  Lemma status_u64 x : receipt_status x < 2 ^ 64.
  Proof. destruct x; reflexivity. Qed.
  Lemma bloom_fixed r : fixed 256 (logs_bloom keccak (x_logs r)).
  Proof. destruct (logs_bloom_ok keccak (x_logs r)) as [A B]. split; assumption. Qed.
  Lemma logs_codec r : result_ok r -> is_item (enc_list (map enc_log (x_logs r))) /\ dec_list dec_log (enc_list (map enc_log (x_logs r))) = Some (x_logs r).
  Proof. intros (_ & W & L). apply (codec_list _ _ _ codec_log); [exact W|lia]. Qed.
  Lemma enc_uint_len n : n < 2 ^ 64 -> len (enc_uint n) <= 17.
  Proof. intros H. unfold enc_uint. pose proof (be_min_len64 n H). pose proof (enc_str_max (be_min n) ltac:(lia)). lia. Qed.
  Lemma receipt_list_facts r : result_ok r -> Forall is_item (receipt_list r) /\ len (concat (receipt_list r)) < 2 ^ 31 + 400 /\ Forall wf_bytes (receipt_list r).
  Proof.
    intros R. destruct (logs_codec r R) as [IL _]. assert (R' := R). destruct R as (G & W & L). pose proof (bloom_fixed r) as [BW BL].
    assert (LB : len (logs_bloom keccak (x_logs r)) = 256) by (unfold len; now rewrite BL).
    split; [|split].
    - unfold receipt_list. constructor; [apply item_u64, status_u64|]. constructor; [now apply item_u64|]. constructor; [apply (item_fixed 256); [now split|reflexivity]|].
      constructor; [exact IL|constructor].
    - unfold receipt_list. cbn [concat]. rewrite !len_app, len_nil. pose proof (enc_uint_len _ (status_u64 (x_exit r))). pose proof (enc_uint_len _ G).
      unfold enc_hash. pose proof (enc_str_max (logs_bloom keccak (x_logs r)) ltac:(lia)). lia.
    - unfold receipt_list. constructor; [apply enc_str_wf; [apply be_min_wf|pose proof (be_min_len64 _ (status_u64 (x_exit r))); lia]|].
      constructor; [apply enc_str_wf; [apply be_min_wf|pose proof (be_min_len64 _ G); lia]|]. constructor; [apply enc_str_wf; [exact BW|lia]|].
      constructor; [|constructor]. pose proof (enc_list_len (map enc_log (x_logs r))). apply enc_list_wf; [|lia]. apply Forall_map, Forall_forall. intros l I.
      rewrite Forall_forall in W. destruct (W l I) as ((Wa & La) & Wt & Wd).
      assert (Q : len (enc_log l) < 2 ^ 31). { pose proof (concat_len_in (enc_log l) (map enc_log (x_logs r)) (in_map _ _ _ I)). lia. }
      unfold enc_log in *. pose proof (enc_list_len (log_items l)) as Q2. apply enc_list_wf; [|lia]. unfold log_items in *. cbn [concat] in Q2. rewrite !len_app in Q2.
      constructor; [apply enc_str_wf; [exact Wa|unfold len; rewrite La; reflexivity]|]. constructor.
      + pose proof (enc_list_len (map enc_hash (lg_topics l))). apply enc_list_wf; [|lia]. apply Forall_map, Forall_forall. intros t It. rewrite Forall_forall in Wt. destruct (Wt t It) as [X Y].
        apply enc_str_wf; [exact X|unfold len; rewrite Y; reflexivity].
      + constructor; [|constructor]. apply enc_str_wf; [exact Wd|]. pose proof (enc_str_len (lg_data l)). lia.
  Qed.
  Lemma enc1_cases tr : enc1 tr = match u_unsigned (s_tx (fst tr)) with Legacy _ => [] | Eip2930 _ => [1] | Eip1559 _ => [2] end ++ enc_list (receipt_list (snd tr)).
  Proof. unfold enc1, encode_receipt, receipt_list. destruct (u_unsigned (s_tx (fst tr))); reflexivity. Qed.
  Lemma enc_list_max l : len (concat l) < 2 ^ 64 -> len (enc_list l) <= len (concat l) + 9.
  Proof. intros H. unfold enc_list. rewrite len_app. pose proof (enc_header_len 192 _ H). lia. Qed.
  Lemma enc1_item tr : result_ok (snd tr) -> enc1 tr <> [] /\ wf_bytes (enc1 tr) /\ len (enc1 tr) < 2 ^ 32.
  Proof.
    intros R. destruct (receipt_list_facts _ R) as (I & L & W). rewrite enc1_cases.
    assert (WL : wf_bytes (enc_list (receipt_list (snd tr)))) by (apply enc_list_wf; [exact W|lia]). pose proof (enc_list_max (receipt_list (snd tr)) ltac:(lia)) as M.
    split; [destruct (u_unsigned _); [apply enc_list_nonnil|discriminate|discriminate]|]. split.
    - apply wf_bytes_app. split; [|exact WL]. destruct (u_unsigned _); repeat constructor.
    - rewrite len_app. match goal with |- len ?p + _ < _ => assert (len p <= 1) by (destruct (u_unsigned (s_tx (fst tr))); vm_compute; discriminate) end. lia.
  Qed.
  Lemma enc1_inj a b : result_ok (snd a) -> result_ok (snd b) -> enc1 a = enc1 b -> told a = told b.
  Proof.
    intros A B E. rewrite !enc1_cases in E. destruct (receipt_list_facts _ A) as (IA & LA & _). destruct (receipt_list_facts _ B) as (IB & LB & _).
    destruct (enc_list_head (receipt_list (snd a))) as (ha & ra & Ea & Ha). destruct (enc_list_head (receipt_list (snd b))) as (hb & rb & Eb & Hb).
    assert (X : told a = told b <-> o_type (told a) = o_type (told b) /\ o_succeeded (told a) = o_succeeded (told b) /\ o_gas (told a) = o_gas (told b) /\ o_logs (told a) = o_logs (told b)).
    { destruct (told a), (told b). cbn. split; [intros Q; injection Q as -> -> -> ->; auto|intros (-> & -> & -> & ->); reflexivity]. }
    apply X. clear X.
    assert (P : o_type (told a) = o_type (told b) /\ enc_list (receipt_list (snd a)) = enc_list (receipt_list (snd b))).
    { unfold told. cbn [o_type]. destruct (u_unsigned (s_tx (fst a))), (u_unsigned (s_tx (fst b))); cbn [app] in E; rewrite ?Ea, ?Eb in E |- *;
        (split; [reflexivity || (injection E as E0 E1; lia)|]); try exact E; injection E; intros; subst; try reflexivity; try lia; congruence. }
    destruct P as [PT PL]. split; [exact PT|]. apply enc_list_inj in PL; [|assumption|assumption|lia|lia]. unfold receipt_list in PL. injection PL as P1 P2 P3 P4.
    destruct (logs_codec _ A) as [_ DA]. destruct (logs_codec _ B) as [_ DB]. rewrite P4, DB in DA. injection DA as DA.
    apply enc_uint_inj in P1; [|apply status_u64|apply status_u64]. apply enc_uint_inj in P2; [|apply A|apply B].
    unfold told. cbn [o_succeeded o_gas o_logs]. split; [|split; [exact P2|now symmetry]].
    destruct (x_exit (snd a)), (x_exit (snd b)); cbn in P1; try reflexivity; discriminate P1.
  Qed.
  Lemma enc1_list_inj : forall l m, Forall (fun tr : stx * tx_resp => result_ok (snd tr)) l -> Forall (fun tr : stx * tx_resp => result_ok (snd tr)) m ->
    map enc1 l = map enc1 m -> map told l = map told m.
  Proof.
    induction l as [|x l IH]; intros [|y m] C C' Q; cbn in Q |- *; try discriminate Q; [reflexivity|]. injection Q as Q1 Q2. inversion C; inversion C'; subst.
    f_equal; [now apply enc1_inj|]. now apply IH.
  Qed.
  Definition results_ok (txs : list stx) (rs : list tx_resp) : Prop := Forall result_ok rs /\ N.of_nat (length txs) < 2 ^ 64.
  Lemma combine_ok txs rs : Forall result_ok rs -> Forall (fun tr : stx * tx_resp => result_ok (snd tr)) (combine txs rs).
  Proof. intros F. apply Forall_forall. intros [t r] I. apply in_combine_r in I. rewrite Forall_forall in F. now apply F. Qed.
  Lemma receipt_items txs rs : results_ok txs rs -> items_ok (encode_receipts txs rs).
  Proof.
    intros [F B]. unfold CommitModel.encode_receipts. split.
    - apply Forall_map. pose proof (combine_ok txs rs F) as C. rewrite Forall_forall in C |- *. intros tr I. exact (enc1_item tr (C tr I)).
    - rewrite map_length, combine_length. lia.
  Qed.
  (** Every list of results has a root, and another list with that root says the same about every transaction: its type, success, gas and logs. *)
  Theorem C98_receipts : forall txs rs, results_ok txs rs -> tells_apart (nodes (encode_receipts txs rs)) ->
    exists r, receipts_root txs rs = Ok r /\
      forall txs' rs', results_ok txs' rs' -> tells_apart (nodes (encode_receipts txs rs) ++ nodes (encode_receipts txs' rs')) -> receipts_root txs' rs' = Ok r ->
        map told (combine txs' rs') = map told (combine txs rs).
  Proof.
    intros txs rs O T. destruct (list_root_ok _ (receipt_items txs rs O) T) as (r & E & _). exists r. split; [exact E|]. intros txs' rs' O' T2 E'.
    pose proof (list_root_inj _ _ r (receipt_items _ _ O) (receipt_items _ _ O') T2 E E') as Q. destruct O as [F _], O' as [F' _].
    unfold CommitModel.encode_receipts in Q. change (map enc1 (combine txs rs) = map enc1 (combine txs' rs')) in Q.
    pose proof (combine_ok txs rs F) as C. pose proof (combine_ok txs' rs' F') as C'. symmetry. now apply enc1_list_inj.
  Qed.

  (* ---------------- the block ---------------- *)
  (** A block as a node makes and checks it: [p] passed check_order_transactions with the transactions [txs], and [e] is the outcome of executing them. *)
  Record built (p : proposal) (txs : list stx) (e : exec_resp) : Prop := Built {
    bt_hashes : transactions_root (p_tx_hashes p) = Ok (p_transactions_root p);
    bt_signed : digest_signed_transactions keccak txs = p_signed_txs_hash p;
    bt_receipts : receipts_root txs (er_tx_resp e) = Ok (er_receipt_root e) }.
  Record sizes (p : proposal) (txs : list stx) (e : exec_resp) : Prop := Sizes {
    sz_header : wf_header (b_header (block_new keccak p e)) /\ len (enc_hdr (b_header (block_new keccak p e))) < 2 ^ 64;
    sz_hashes : hashes_ok (p_tx_hashes p);
    sz_txs : Forall (sent keccak recover) txs /\ len (enc_batch txs) < 2 ^ 64;
    sz_results : results_ok txs (er_tx_resp e) }.
  Definition hashed (p : proposal) (txs : list stx) (e : exec_resp) : list bytes :=
    [enc_hdr (b_header (block_new keccak p e)); enc_batch txs] ++ nodes (map enc_hash (p_tx_hashes p)) ++ nodes (encode_receipts txs (er_tx_resp e)).
  (** Two blocks with the same hash are the same block: header, list of transactions, the signed transactions themselves, and what the receipts say about each. *)
  Theorem C98_block : forall p txs e p' txs' e', built p txs e -> built p' txs' e' -> sizes p txs e -> sizes p' txs' e' ->
    tells_apart (hashed p txs e ++ hashed p' txs' e') -> block_hash keccak (block_new keccak p e) = block_hash keccak (block_new keccak p' e') ->
    block_new keccak p e = block_new keccak p' e' /\ txs = txs' /\ map told (combine txs (er_tx_resp e)) = map told (combine txs' (er_tx_resp e')).
  Proof.
    intros p txs e p' txs' e' [B1 B2 B3] [B1' B2' B3'] [(SH & SL) SX (ST & SB) SR] [(SH' & SL') SX' (ST' & SB') SR'] T E.
    assert (SUB : forall l, (forall x, In x l -> In x (hashed p txs e ++ hashed p' txs' e')) -> tells_apart l) by (intros l I a b A B; apply T; auto).
    assert (EH : b_header (block_new keccak p e) = b_header (block_new keccak p' e')).
    { apply C05_header_bytes_bind; auto. unfold block_hash in E. apply T in E; auto; apply in_app_iff; [left|right]; now left. }
    assert (EQ1 := f_equal h_transactions_root EH). assert (EQ2 := f_equal h_signed_txs_hash EH). assert (EQ3 := f_equal h_receipts_root EH). cbn in EQ1, EQ2, EQ3.
    assert (X : p_tx_hashes p' = p_tx_hashes p).
    { destruct (C98_transactions (p_tx_hashes p) SX) as (r & Er & U).
      { apply SUB. intros x I. unfold hashed. rewrite !in_app_iff. tauto. }
      apply U; [exact SX'|apply SUB; intros x I; unfold hashed; rewrite !in_app_iff in *; tauto|]. rewrite B1', <- EQ1, <- B1. exact Er. }
    assert (Y : txs = txs').
    { apply C98_signed; auto; [|congruence]. apply SUB. unfold hashed. intros x [<-|[<-|[]]]; rewrite !in_app_iff; cbn [In]; tauto. }
    split; [|split; [exact Y|]].
    - unfold block_new in *. cbn [b_header] in EH. rewrite EH, X. reflexivity.
    - destruct (C98_receipts txs (er_tx_resp e) SR) as (r & Er & U).
      { apply SUB. intros x I. unfold hashed. rewrite !in_app_iff. tauto. }
      symmetry. apply U; [exact SR'|apply SUB; intros x I; unfold hashed; rewrite !in_app_iff in *; tauto|]. rewrite B3', <- EQ3, <- B3. exact Er.
  Qed.

  (* ---------------- proofs for one item ---------------- *)
  Lemma after_items items i : items_ok items -> i < 2 ^ 64 -> after (puts 0 items) (enc_uint i) = nth_error items (N.to_nat i).
  Proof.
    intros [F B] I. unfold after. rewrite (after_puts keccak keccak_32 keccak_wf items 0 i _ F) by (rewrite ?N.add_0_l; assumption). rewrite N.sub_0_r, N.add_0_l.
    rewrite (proj2 (N.leb_le 0 i)) by lia. cbn [andb]. destruct (N.ltb_spec i (N.of_nat (length items))); [reflexivity|]. symmetry. apply nth_error_None. lia.
  Qed.
  Lemma merkle_rooted items T : items_ok items -> run keccak f fresh (puts 0 items ++ [Commit]) = Ok T ->
    exists T0 r, merkle_from f (trie_new (fun _ => None)) 0 items = Ok T0 /\ trie_root keccak T0 = Ok (r, T).
  Proof.
    intros O R. rewrite run_app in R. destruct (run keccak f fresh (puts 0 items)) as [T0| |] eqn:E; cbn [obnd] in R; try discriminate R.
    cbn [run do1] in R. destruct (trie_root keccak T0) as [[r T1]| |] eqn:E1; cbn [obnd] in R; try discriminate R. injection R as <-.
    exists T0, r. split; [now apply (merkle_run keccak)|exact E1].
  Qed.
  (** The proof of a position that was taken after the root was computed shows the item at the position. *)
  Theorem C98_proof : forall items i x, items_ok items -> tells_apart (nodes items) -> nth_error items (N.to_nat i) = Some x ->
    exists r pf, list_root items = Ok r /\ get_proof_by_index keccak f true items i = Ok pf /\ verify_proof keccak f r (enc_uint i) pf = Ok (Some x).
  Proof.
    intros items i x O T NX. assert (O' := O). destruct O' as [F B].
    assert (I : i < N.of_nat (length items)). { assert (N.to_nat i < length items)%nat by (apply nth_error_Some; congruence). lia. }
    assert (PO : Forall (op_ok position_key) (puts 0 items)) by (apply (puts_ok keccak keccak_32 keccak_wf); [exact F|rewrite N.add_0_l; exact B]).
    pose proof (after_items items i O ltac:(lia)) as AI.
    destruct (C92_complete_partial keccak keccak_32 keccak_wf position_key 17 f position_keys Lf (puts 0 items) (enc_uint i) PO) as (T1 & r & pf & R & RA & P & V).
    { exists i. split; [lia|reflexivity]. } { exact T. } { exists (enc_uint i). split; [exists i; split; [lia|reflexivity]|]. rewrite AI, NX. discriminate. }
    destruct (list_root_ok items O T) as (r' & E1 & _ & E3). rewrite RA in E3. injection E3 as <-. exists r, pf. split; [exact E1|]. split.
    - destruct (merkle_rooted items T1 O R) as (T0 & r0 & M & TR). unfold get_proof_by_index. rewrite M. cbn [obnd]. rewrite TR. cbn [obnd snd]. exact P.
    - rewrite V, AI, NX. reflexivity.
  Qed.
  (** Whatever list of nodes someone presents: what it shows at a position is the item at that position. *)
  Theorem C98_proof_sound : forall items r i pf x, items_ok items -> i < 2 ^ 64 -> tells_apart (nodes items ++ pf) -> list_root items = Ok r ->
    verify_proof keccak f r (enc_uint i) pf = Ok (Some x) -> nth_error items (N.to_nat i) = Some x.
  Proof.
    intros items r i pf x O I T E V. assert (O' := O). destruct O' as [F B]. destruct (list_root_ok items O (apart_l _ _ T)) as (r' & E1 & _ & E3). rewrite E in E1. injection E1 as <-.
    assert (PO : Forall (op_ok position_key) (puts 0 items)) by (apply (puts_ok keccak keccak_32 keccak_wf); [exact F|rewrite N.add_0_l; exact B]).
    destruct (C92_sound keccak keccak_32 keccak_wf position_key 17 f position_keys Lf (puts 0 items) r (enc_uint i) pf PO) as [X|[X|X]]; auto; try congruence.
    - exists i. now split.
    - rewrite X, (after_items items i O I) in V. now injection V.
  Qed.
End Commit.

(* ================= examples ================= *)
(** The reference vector of /repo/core/executor/src/lib.rs 214-293. *)
Definition test_tx : stx := Stx (Utx (Eip1559 (Eip1559Tx 0 0 0 0 Create 0 [] [])) None None []) (repeat 0 20) None.
Definition test_resp : tx_resp := TxResp_ (XSucceed 0) [] 10 0 0 [Log_ (repeat 0 20) [] []] None false.
Definition reference_encode : bytes := [2; 249; 1; 30; 1; 10; 185; 1; 0] ++ logs_bloom keccak256 (x_logs test_resp) ++ [216; 215; 148] ++ repeat 0 20 ++ [192; 128].
Definition reference_root : bytes :=
  [197; 180; 204; 76; 181; 157; 142; 152; 246; 237; 148; 126; 24; 207; 94; 119; 119; 205; 11; 16; 193; 17; 102; 157; 61; 7; 166; 133; 173; 208; 124; 6].
Example C98_reference : encode_receipts keccak256 [test_tx] [test_resp] = [reference_encode] /\ receipts_root keccak256 80 [test_tx] [test_resp] = Ok reference_root.
Proof. split; vm_compute; reflexivity. Qed.
(** The constants are what the code says they are, and the hash in use meets the hypotheses. *)
Example C98_constants : keccak256 [128] = RLP_NULL /\ keccak256 [192] = RLP_EMPTY_LIST.
Proof. split; vm_compute; reflexivity. Qed.

(** Two signed transactions with their results, and the block that a node makes of them. *)
Definition ct_recover : bytes -> bytes -> option bytes := fun _ _ => Some (repeat 3 64).
Definition ct_u1 : utx := Utx (Legacy (LegacyTx 0 1 21000 (Call (repeat 17 20)) 5 [])) (Some ex_sig) (Some 5) [].
Definition ct_tx (t : utx) : stx := match from_unverified keccak256 ct_recover t with Ok s => s | _ => Stx t [] None end.
Definition ct_txs : list stx := Eval vm_compute in [ct_tx ct_u1; ct_tx ex_2930].
Definition ct_r1 : tx_resp := TxResp_ (XSucceed 1) [1; 2] 21000 0 7 [Log_ (repeat 9 20) [repeat 8 32] [1; 2; 3]] None false.
Definition ct_r2 : tx_resp := TxResp_ (XRevert 0) [] 30000 0 7 [] (Some (repeat 4 32)) false.
Definition ct_hashes : list bytes := Eval vm_compute in map (fun s => u_hash (s_tx s)) ct_txs.
Definition ct_root (o : outcome bytes) : bytes := match o with Ok r => r | _ => [] end.
Definition ct_p : proposal := Eval vm_compute in
  Proposal_ V0 (repeat 1 32) (repeat 2 20) (repeat 3 32) (ct_root (transactions_root keccak256 80 ct_hashes)) (digest_signed_transactions keccak256 ct_txs) 1 2 30000000 [] 1337
    (Proof_ 1 0 (repeat 5 32) [1] [2]) 5 0 ct_hashes.
Definition ct_e : exec_resp := Eval vm_compute in ExecResp_ (repeat 6 32) (ct_root (receipts_root keccak256 80 ct_txs [ct_r1; ct_r2])) 51000 [ct_r1; ct_r2].
Lemma ct_sent t s : wf_signed_utx t -> len (enc_utx t) < 2 ^ 64 -> from_unverified keccak256 ct_recover t = Ok s -> sent keccak256 ct_recover s.
Proof. intros W L E. exists t. split; [exact W|]. split; [exact L|exact E]. Qed.
Lemma ct_u1_wf : wf_signed_utx ct_u1.
Proof. wf_tac. left; split; reflexivity. Qed.
(** The hypotheses of the theorems are met by a block with a transfer and a failed call. *)
Example C98_nontrivial : built keccak256 80 ct_p ct_txs ct_e /\ sizes keccak256 ct_recover ct_p ct_txs ct_e
  /\ tells_apart keccak256 (hashed keccak256 80 ct_p ct_txs ct_e) /\ (length (hashed keccak256 80 ct_p ct_txs ct_e) > 6)%nat
  /\ map told (combine ct_txs [ct_r1; ct_r2]) = [Outcome 0 true 21000 (x_logs ct_r1); Outcome 1 false 30000 []].
Proof.
  split; [|split; [|split; [|split]]].
  - split; vm_compute; reflexivity.
  - split.
    + split; [|vm_compute; reflexivity]. unfold wf_header. cbn [b_header block_new h_prev_hash h_proposer h_state_root h_transactions_root h_signed_txs_hash h_receipts_root h_log_bloom h_timestamp h_number
        h_gas_used h_gas_limit h_extra_data h_base_fee h_proof h_call_system_script_count h_chain_id]. wf_tac2. unfold wf_proof. wf_tac2.
    + split; [|vm_compute; reflexivity]. wf_tac2.
    + split; [|vm_compute; reflexivity]. constructor; [|constructor; [|constructor]]; [apply (ct_sent ct_u1)|apply (ct_sent ex_2930)]; try (vm_compute; reflexivity); [apply ct_u1_wf|apply ex_2930_wf].
    + split; [|vm_compute; reflexivity]. constructor; [|constructor; [|constructor]]; (split; [vm_compute; reflexivity|]; split; [|vm_compute; reflexivity]); repeat constructor; try (apply wf_bytesb_spec; vm_compute; reflexivity).
  - apply apartb_ok. vm_compute. reflexivity.
  - vm_compute. repeat constructor.
  - vm_compute. reflexivity.
Qed.
Example C98_proof_nontrivial : exists r pf, transactions_root keccak256 80 ct_hashes = Ok r /\ get_proof_by_index keccak256 80 true (map enc_hash ct_hashes) 1 = Ok pf
  /\ (length pf > 1)%nat /\ verify_proof keccak256 80 r (enc_uint 1) pf = Ok (Some (enc_hash (nth 1 ct_hashes []))) /\ tells_apart keccak256 (nodes keccak256 80 (map enc_hash ct_hashes)).
Proof.
  assert (P : exists pf, get_proof_by_index keccak256 80 true (map enc_hash ct_hashes) 1 = Ok pf /\ (length pf > 1)%nat
    /\ (let! r := transactions_root keccak256 80 ct_hashes in verify_proof keccak256 80 r (enc_uint 1) pf) = Ok (Some (enc_hash (nth 1 ct_hashes [])))).
  { eexists. split; [vm_compute; reflexivity|]. split; [vm_compute; repeat constructor|]. vm_compute. reflexivity. }
  destruct P as (pf & P & Ln & V). apply obnd_ok in V as (r & R & V). exists r, pf. split; [exact R|]. split; [exact P|]. split; [exact Ln|]. split; [exact V|].
  apply apartb_ok. vm_compute. reflexivity.
Qed.

(* ================= what does not hold ================= *)
(** The receipts under the root are not those of Ethereum: the gas is that of the transaction alone, where EIP-658 has the gas of the block up to the transaction. *)
Theorem C98_cumulative_refuted : exists txs rs a b, receipts_root keccak256 80 txs rs = Ok a
  /\ list_root keccak256 80 (map (enc1 keccak256) (cumulative 0 (combine txs rs))) = Ok b /\ a <> b.
Proof.
  exists ct_txs, [ct_r1; ct_r2]. eexists _, _. split; [vm_compute; reflexivity|]. split; [vm_compute; reflexivity|].
  intros X. apply (f_equal (hd 0)) in X. vm_compute in X. discriminate X.
Qed.
(** A proof that was taken before the root was computed lacks the inner nodes; it is accepted, and shows that an item of the list is absent. *)
Theorem C98_unrooted_refuted : exists items i x r pf, items_ok items /\ nth_error items (N.to_nat i) = Some x /\ list_root keccak256 80 items = Ok r
  /\ get_proof_by_index keccak256 80 false items i = Ok pf /\ verify_proof keccak256 80 r (enc_uint i) pf = Ok None.
Proof.
  assert (P : exists pf, get_proof_by_index keccak256 80 false (map enc_hash ct_hashes) 1 = Ok pf
    /\ (let! r := list_root keccak256 80 (map enc_hash ct_hashes) in verify_proof keccak256 80 r (enc_uint 1) pf) = Ok None).
  { eexists. split; [vm_compute; reflexivity|]. vm_compute. reflexivity. }
  destruct P as (pf & P & V). apply obnd_ok in V as (r & R & V).
  exists (map enc_hash ct_hashes), 1, (enc_hash (nth 1 ct_hashes [])), r, pf. split.
  { apply (hash_items keccak256 ct_recover keccak256_32 keccak256_wf 80%nat (le_n _)). split; [|vm_compute; reflexivity]. wf_tac2. }
  split; [vm_compute; reflexivity|]. split; [exact R|]. split; [exact P|exact V].
Qed.
(** The receipts a node keeps and serves say more than the root: how a transaction succeeded or failed, and the address of a new contract, are not under the hash of the block. *)
Definition ct_e' : exec_resp := ExecResp_ (er_state_root ct_e) (er_receipt_root ct_e) 51000
  [TxResp_ (XSucceed 0) [1; 2] 21000 0 7 (x_logs ct_r1) None false; TxResp_ (XError (XErr 0 PUnit)) [] 30000 0 7 [] (Some (repeat 44 32)) false].
Theorem C98_served_receipt_refuted : exists p txs e e' l l', built keccak256 80 p txs e /\ built keccak256 80 p txs e'
  /\ block_hash keccak256 (block_new keccak256 p e) = block_hash keccak256 (block_new keccak256 p e')
  /\ gen_receipts keccak256 (block_new keccak256 p e) 0 0 (map (fun s => (u_hash (s_tx s), s_sender s)) txs) (er_tx_resp e) = Ok l
  /\ gen_receipts keccak256 (block_new keccak256 p e') 0 0 (map (fun s => (u_hash (s_tx s), s_sender s)) txs) (er_tx_resp e') = Ok l' /\ l <> l'.
Proof.
  exists ct_p, ct_txs, ct_e, ct_e'. eexists _, _. split; [split; vm_compute; reflexivity|]. split; [split; vm_compute; reflexivity|]. split; [vm_compute; reflexivity|].
  split; [vm_compute; reflexivity|]. split; [vm_compute; reflexivity|]. intros X. apply (f_equal (map r_code_address)) in X. vm_compute in X. discriminate X.
Qed.

Print Assumptions C98_transactions.
Print Assumptions C98_signed.
Print Assumptions C98_receipt.
Print Assumptions C98_receipts.
Print Assumptions C98_block.
Print Assumptions C98_proof.
Print Assumptions C98_proof_sound.
Print Assumptions C98_cumulative_refuted.
Print Assumptions C98_unrooted_refuted.
Print Assumptions C98_served_receipt_refuted.
