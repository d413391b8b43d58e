(** C110: which methods are served where and how large calls may be, what a node tells about itself and about its synchronisation. *)
From Verif Require Import Bytes BytesProofs Rlp TxModel WalModel StorageModel StorageProofs StorageProps BlockModel HexModel HexProps VersionModel VersionProps Keccak
  TrieProps2 ConsensusModel ConsensusProofs ConsensusProps ConsensusProps2 SyncModel SyncProps ServerModel.
From stdpp Require Import base gmap list strings.
From Coq Require Import Lia.
Local Open Scope N_scope.

(* ---------------------------------------------------------------------- *)
(** * Methods *)
(** The methods that /repo/core/api/README.md documents, in its order (230-2391), with what the section describes. *)
Definition documented : list (string * string) := [
  ("eth_sendRawTransaction", "send_raw_transaction"); ("eth_blockNumber", "block_number"); ("eth_submitWork", "submit_work");
  ("eth_submitHashrate", "submit_hashrate"); ("eth_getBlockByHash", "get_block_by_hash"); ("eth_getTransactionByHash", "get_transaction_by_hash");
  ("eth_getBlockTransactionCountByNumber", "get_block_transaction_count_by_number"); ("eth_getTransactionReceipt", "get_transaction_receipt");
  ("eth_feeHistory", "fee_history"); ("eth_getBlockTransactionCountByHash", "get_block_transaction_count_by_hash");
  ("eth_getTransactionByBlockHashAndIndex", "get_transaction_by_block_hash_and_index");
  ("eth_getTransactionByBlockNumberAndIndex", "get_transaction_by_block_number_and_index"); ("eth_getBlockByNumber", "get_block_by_number");
  ("eth_getProof", "get_proof"); ("axon_getBlockById", "get_block_by_id"); ("axon_getProofById", "get_proof_by_id");
  ("axon_getMetadataByNumber", "get_metadata_by_number"); ("axon_getProposalByNumber", "get_proposal_by_number");
  ("axon_getCkbRelatedInfo", "get_ckb_related_info"); ("eth_getTransactionCount", "get_transaction_count"); ("eth_getBalance", "get_balance");
  ("eth_chainId", "chain_id"); ("net_version", "net_version"); ("eth_call", "call"); ("eth_estimateGas", "estimate_gas");
  ("eth_getCode", "get_code"); ("eth_gasPrice", "gas_price"); ("net_listening", "listening"); ("eth_mining", "mining");
  ("net_peerCount", "peer_count"); ("eth_syncing", "syncing"); ("eth_getLogs", "get_logs"); ("web3_clientVersion", "client_version");
  ("eth_accounts", "accounts"); ("web3_sha3", "sha3"); ("eth_getStorageAt", "get_storage_at"); ("eth_coinbase", "coinbase");
  ("eth_hashrate", "hashrate"); ("axon_getCurrentMetadata", "get_current_metadata"); ("axon_getHardforkInfo", "hardfork_infos")]%string.
(** Subscriptions are offered over WebSocket alone. *)
Definition subscriptions : list string := ["eth_subscribe"; "eth_unsubscribe"]%string.

Definition all_rpc : methods := web3_rpc ++ node_rpc ++ axon_rpc ++ filter_rpc ++ ckb_rpc.
Lemma merged_all : merged = Some all_rpc.
Proof. vm_compute. reflexivity. Qed.
Lemma merged_subs : merge_methods all_rpc subscription_rpc = Some (all_rpc ++ subscription_rpc).
Proof. vm_compute. reflexivity. Qed.
Lemma lookup_app a b x : lookup_method (a ++ b) x = match lookup_method a x with Some f => Some f | None => lookup_method b x end.
Proof.
  unfold lookup_method. induction a as [|e a IH]; [done|]. cbn [app List.find]. case_bool_decide; [done|exact IH].
Qed.
Lemma subs_lookup x : ~ In x subscriptions -> lookup_method subscription_rpc x = None.
Proof.
  unfold lookup_method, subscription_rpc. intros N. cbn [List.find fst].
  case_bool_decide as A; [destruct N; rewrite <- A; by left|]. case_bool_decide as B; [destruct N; rewrite <- B; right; by left|]. done.
Qed.

(** A started server: what it is bound to, what it takes. *)
Definition http_of (c : api_config) (s : server) : Prop := exists w bind, run_servers c bind = Ok (Some s, w).
Definition ws_of (c : api_config) (s : server) : Prop := exists h bind, run_servers c bind = Ok (h, Some s).
Lemma http_inv c s : http_of c s -> ac_http c = Some (sv_addr s) /\ sv_http s = true /\ sv_ws s = false /\ sv_request s = ac_max_payload c /\
  sv_response s = ac_max_payload c /\ sv_conns s = ac_maxconn c /\ sv_methods s = all_rpc.
Proof.
  intros (w & bind & R). unfold run_servers in R. rewrite merged_all, merged_subs in R.
  destruct (ac_http c) as [a|] eqn:A.
  - destruct (bind a); [|done]. destruct (ac_ws c) as [b|]; [destruct (bind b); [|done]|];
      match type of R with Ok (Some ?x, _) = _ => assert (E : x = s) by congruence end; clear R; subst s; done.
  - destruct (ac_ws c) as [b|]; [destruct (bind b)|]; congruence.
Qed.
Lemma ws_inv c s : ws_of c s -> ac_ws c = Some (sv_addr s) /\ sv_http s = false /\ sv_ws s = true /\ sv_request s = ac_max_payload c /\
  sv_response s = 10485760 /\ sv_conns s = ac_maxconn c /\ sv_methods s = all_rpc ++ subscription_rpc.
Proof.
  intros (w & bind & R). unfold run_servers in R. rewrite merged_all, merged_subs in R.
  destruct (match ac_http c with Some _ => _ | None => _ end) as [h| |]; [|done|done].
  destruct (ac_ws c) as [b|]; [|congruence]. destruct (bind b); [|done].
  match type of R with Ok (_, Some ?x) = _ => assert (E : x = s) by congruence end. clear R. subst s. done.
Qed.

(** The servers that are configured come up when their addresses can be listened on, and no set of methods makes the node fail. *)
Theorem C110_start c bind : (forall a, ac_http c = Some a \/ ac_ws c = Some a -> bind a = true) ->
  exists h w, run_servers c bind = Ok (h, w) /\ (sv_addr <$> h) = ac_http c /\ (sv_addr <$> w) = ac_ws c.
Proof.
  intros B. unfold run_servers. rewrite merged_all, merged_subs. destruct (ac_http c) as [a|].
  - rewrite (B a) by auto. destruct (ac_ws c) as [b|]; [rewrite (B b) by auto|]; eauto.
  - destruct (ac_ws c) as [b|]; [rewrite (B b) by auto|]; eauto.
Qed.
(** Whatever can be listened on: no panic, and an address that cannot be had ends in an error. *)
Theorem C110_start_fails c bind : run_servers c bind <> Panic /\
  (run_servers c bind = Err <-> exists a, (ac_http c = Some a \/ ac_ws c = Some a) /\ bind a = false).
Proof.
  unfold run_servers. rewrite merged_all, merged_subs. destruct (ac_http c) as [a|] eqn:A, (ac_ws c) as [b|] eqn:W.
  - destruct (bind a) eqn:BA; [destruct (bind b) eqn:BB|].
    + split; [done|]. split; [done|]. intros (x & [[= <-]|[= <-]] & F); congruence.
    + split; [done|]. split; [|done]. intros _. exists b. auto.
    + split; [done|]. split; [|done]. intros _. exists a. auto.
  - destruct (bind a) eqn:BA.
    + split; [done|]. split; [done|]. intros (x & [[= <-]|X] & F); congruence.
    + split; [done|]. split; [|done]. intros _. exists a. auto.
  - destruct (bind b) eqn:BB.
    + split; [done|]. split; [done|]. intros (x & [X|[= <-]] & F); congruence.
    + split; [done|]. split; [|done]. intros _. exists b. auto.
  - split; [done|]. split; [done|]. intros (x & [X|X] & F); congruence.
Qed.

(** Every documented method but one is answered, over both transports, by the function that the documentation describes. *)
Theorem C110_documented c s open request name f answer : http_of c s \/ ws_of c s -> In (name, f) documented -> name <> "eth_submitWork"%string ->
  open < ac_maxconn c -> len request <= ac_max_payload c -> len (answer f) <= N.min (ac_max_payload c) 10485760 ->
  serve s open request name answer = RAnswer (answer f).
Proof.
  intros S D NS O R A.
  assert (L : lookup_method all_rpc name = Some f).
  { assert (F : Forall (fun e => e.1 <> "eth_submitWork"%string -> lookup_method all_rpc e.1 = Some e.2) documented).
    { apply (bool_decide_unpack _). vm_compute. exact Logic.I. }
    rewrite Forall_forall in F. apply (F (name, f)); [by apply elem_of_list_In|done]. }
  unfold serve. destruct S as [S|S].
  - destruct (http_inv c s S) as (_ & _ & _ & -> & -> & -> & ->). rewrite L.
    destruct (N.leb_spec (ac_maxconn c) open); [lia|]. destruct (N.ltb_spec (ac_max_payload c) (len request)); [lia|].
    destruct (N.ltb_spec (ac_max_payload c) (len (answer f))); [lia|done].
  - destruct (ws_inv c s S) as (_ & _ & _ & -> & -> & -> & ->). rewrite lookup_app, L.
    destruct (N.leb_spec (ac_maxconn c) open); [lia|]. destruct (N.ltb_spec (ac_max_payload c) (len request)); [lia|].
    destruct (N.ltb_spec 10485760 (len (answer f))); [lia|done].
Qed.
(** Both transports know the same methods, subscriptions aside, and these only one of them. *)
Theorem C110_same c h w name : http_of c h -> ws_of c w ->
  (~ In name subscriptions -> lookup_method (sv_methods h) name = lookup_method (sv_methods w) name) /\
  (In name subscriptions -> lookup_method (sv_methods h) name = None /\ lookup_method (sv_methods w) name <> None).
Proof.
  intros H W. destruct (http_inv c h H) as (_ & _ & _ & _ & _ & _ & ->). destruct (ws_inv c w W) as (_ & _ & _ & _ & _ & _ & ->).
  rewrite lookup_app. split.
  - intros N. rewrite (subs_lookup name N). by destruct (lookup_method all_rpc name).
  - intros [<-|[<-|[]]]; split; vm_compute; congruence.
Qed.
(** No name means two functions. *)
Theorem C110_names c s n1 f1 f2 : http_of c s \/ ws_of c s -> In (n1, f1) (sv_methods s) -> In (n1, f2) (sv_methods s) -> f1 = f2.
Proof.
  assert (D : forall l : methods, NoDup (map fst l) -> In (n1, f1) l -> In (n1, f2) l -> f1 = f2).
  { induction l as [|[n f] l IH]; [done|]. cbn [map fst]. intros ND. apply NoDup_cons in ND as [NI ND]. intros [A|A] [B|B].
    - congruence.
    - injection A as -> ->. destruct NI. apply elem_of_list_In, in_map_iff. exists (n1, f2). done.
    - injection B as -> ->. destruct NI. apply elem_of_list_In, in_map_iff. exists (n1, f1). done.
    - auto. }
  intros [S|S]; apply D.
  - destruct (http_inv c s S) as (_ & _ & _ & _ & _ & _ & ->). apply (bool_decide_unpack _). vm_compute. exact Logic.I.
  - destruct (ws_inv c s S) as (_ & _ & _ & _ & _ & _ & ->). apply (bool_decide_unpack _). vm_compute. exact Logic.I.
Qed.
(** eth_submitWork is documented and no server knows it; it is known under a name that ends in a space. *)
Theorem C110_submit_work_refuted : In ("eth_submitWork", "submit_work")%string documented /\
  (forall c s open request answer, http_of c s \/ ws_of c s -> open < ac_maxconn c -> len request <= ac_max_payload c ->
     serve s open request "eth_submitWork" answer = RNotFound) /\
  (forall c s, http_of c s \/ ws_of c s -> lookup_method (sv_methods s) "eth_submitWork " = Some "submit_work"%string).
Proof.
  split; [cbn; auto|]. split.
  - intros c s open request answer S O R. unfold serve.
    assert (lookup_method (sv_methods s) "eth_submitWork" = None /\ sv_conns s = ac_maxconn c /\ sv_request s = ac_max_payload c) as (-> & -> & ->).
    { destruct S as [S|S].
      - destruct (http_inv c s S) as (_ & _ & _ & -> & _ & -> & ->). split; [vm_compute; reflexivity|done].
      - destruct (ws_inv c s S) as (_ & _ & _ & -> & _ & -> & ->). split; [vm_compute; reflexivity|done]. }
    destruct (N.leb_spec (ac_maxconn c) open); [lia|]. destruct (N.ltb_spec (ac_max_payload c) (len request)); [lia|done].
  - intros c s [S|S].
    + destruct (http_inv c s S) as (_ & _ & _ & _ & _ & _ & ->). vm_compute. reflexivity.
    + destruct (ws_inv c s S) as (_ & _ & _ & _ & _ & _ & ->). vm_compute. reflexivity.
Qed.

(* ---------------------------------------------------------------------- *)
(** * Limits *)
(** No request longer than the configured size is served, and never more connections than configured. *)
Theorem C110_requests c s open request name answer : http_of c s \/ ws_of c s ->
  (ac_maxconn c <= open -> serve s open request name answer = RBusy) /\
  (open < ac_maxconn c -> (serve s open request name answer = RRequestTooBig <-> ac_max_payload c < len request)).
Proof.
  intros S. assert (M : sv_conns s = ac_maxconn c /\ sv_request s = ac_max_payload c).
  { destruct S as [S|S]; [destruct (http_inv c s S) as (_ & _ & _ & -> & _ & -> & _)|destruct (ws_inv c s S) as (_ & _ & _ & -> & _ & -> & _)]; done. }
  destruct M as [C R]. unfold serve. rewrite C, R. split.
  - intros O. by apply N.leb_le in O as ->.
  - intros O. destruct (N.leb_spec (ac_maxconn c) open); [lia|]. destruct (N.ltb_spec (ac_max_payload c) (len request)) as [L|L]; [done|].
    split; [|lia]. destruct (lookup_method _ _); [|done]. by destruct (_ <? _).
Qed.
(** Over HTTP no answer longer than the configured size is sent. *)
Theorem C110_answers c s open request name answer b : http_of c s -> serve s open request name answer = RAnswer b -> len b <= ac_max_payload c.
Proof.
  intros S. destruct (http_inv c s S) as (_ & _ & _ & _ & R & _). unfold serve. rewrite R.
  destruct (_ <=? _); [done|]. destruct (_ <? len request); [done|]. destruct (lookup_method _ _) as [f|]; [|done].
  destruct (N.ltb_spec (ac_max_payload c) (len (answer f))); [done|]. intros X. assert (E : answer f = b) by congruence. by rewrite <- E.
Qed.
(** Over WebSocket the configured size means nothing to answers: with a smaller one longer answers are sent, with a larger one answers within
    it are refused that HTTP sends. *)
Theorem C110_ws_answers_refuted :
  (exists c s request name answer b, ws_of c s /\ serve s 0 request name answer = RAnswer b /\ ac_max_payload c < len b) /\
  (exists c h w request name answer b, http_of c h /\ ws_of c w /\ len b <= ac_max_payload c /\
     serve h 0 request name answer = RAnswer b /\ serve w 0 request name answer = RAnswerTooBig).
Proof.
  assert (LR : forall k : N, len (repeat 48 (N.to_nat k)) = k) by (intros k; unfold len; rewrite repeat_length; lia).
  assert (L : lookup_method all_rpc "eth_getLogs" = Some "get_logs"%string) by (vm_compute; reflexivity). split.
  - set (c := ApiConfig None (Some 1) 10 1000). assert (W : exists s, ws_of c s).
    { destruct (C110_start c (fun _ => true) (fun _ _ => eq_refl)) as (h & w & R & _ & B). destruct w as [w|]; [|done]. exists w, h, (fun _ => true). exact R. }
    destruct W as [s W]. exists c, s, [], "eth_getLogs"%string, (fun _ => repeat 48 (N.to_nat 2000)), (repeat 48 (N.to_nat 2000)).
    split; [exact W|]. split; [|rewrite LR; cbn; lia]. unfold serve. destruct (ws_inv c s W) as (_ & _ & _ & -> & -> & -> & ->).
    rewrite lookup_app, L, LR. reflexivity.
  - set (c := ApiConfig (Some 1) (Some 2) 10 20000000).
    destruct (C110_start c (fun _ => true) (fun _ _ => eq_refl)) as (h & w & R & A & B). destruct h as [h|]; [|done]. destruct w as [w|]; [|done].
    assert (H : http_of c h) by (exists (Some w), (fun _ => true); exact R). assert (W : ws_of c w) by (exists (Some h), (fun _ => true); exact R).
    exists c, h, w, [], "eth_getLogs"%string, (fun _ => repeat 48 (N.to_nat 15000000)), (repeat 48 (N.to_nat 15000000)).
    split; [exact H|]. split; [exact W|]. split; [rewrite LR; cbn; lia|]. unfold serve.
    destruct (http_inv c h H) as (_ & _ & _ & -> & -> & -> & ->). destruct (ws_inv c w W) as (_ & _ & _ & -> & -> & -> & ->).
    rewrite lookup_app, L, LR. split; reflexivity.
Qed.

(* ---------------------------------------------------------------------- *)
(** * Errors and the node about itself *)
(** The code of an error tells its kind, and is none of those reserved by JSON-RPC. *)
Theorem C110_codes e1 e2 : (error_code e1 = error_code e2 -> e1 = e2) /\ ~ (-32768 <= error_code e1 <= -32000)%Z.
Proof. split; [destruct e1, e2; (reflexivity || (intros X; vm_compute in X; discriminate X))|destruct e1; cbn; lia]. Qed.

(** eth_chainId and net_version are the same number, in hexadecimal and in decimal digits. *)
Theorem C110_chain_id id : id < 2 ^ 64 ->
  (exists ds, chain_id_text id = P0x ++ ds /\ denotes ds id /\ (forall ds', denotes ds' id -> ds' <> [] -> (length ds <= length ds')%nat)) /\
  numeral id (net_version_text id).
Proof.
  intros B. split; [|apply show_num_numeral].
  assert (B' : id < 2 ^ 256) by (eapply N.lt_trans; [exact B|reflexivity]).
  destruct (C85_number id B') as (ds & E & D & _ & _ & M). exists ds. auto.
Qed.
(** web3_sha3 is the Keccak hash of the bytes that its parameter spells, in 64 digits. *)
Theorem C110_sha3 b ds : spells ds b ->
  exists t, web3_sha3 (P0x ++ ds) = Some (P0x ++ t) /\ spells t (keccak256 b).
Proof.
  intros S. unfold web3_sha3. pose proof (C85_bytes_accepts [] ds b (or_introl eq_refl) S) as E. change ([] ++ ds) with ds in E. rewrite E.
  exists (hex_encode (keccak256 b)). split; [reflexivity|]. apply encode_spells, keccak256_wf.
Qed.

(* ---------------------------------------------------------------------- *)
(** * Progress of synchronisation *)
(** The answer of eth_syncing is false exactly when the status is, and otherwise an object in which each name has one value: the number meant. *)
Theorem C110_told s : match s with
  | NotSyncing => eth_syncing s = AFalse
  | Syncing a c h => a < 2 ^ 256 -> c < 2 ^ 256 -> h < 2 ^ 256 -> exists fs, eth_syncing s = AObject fs /\ NoDup (map fst fs) /\
      Forall (fun e => exists ds, In (e.1, P0x ++ ds) fs /\ denotes ds e.2) [("startingBlock"%string, a); ("currentBlock"%string, c); ("highestBlock"%string, h)]
  end.
Proof.
  destruct s as [|a c h]; [reflexivity|]. intros A C H. eexists. split; [reflexivity|]. split.
  { cbn [map fst]. apply (bool_decide_unpack _). vm_compute. exact Logic.I. }
  destruct (C85_number a A) as (da & EA & DA & _). destruct (C85_number c C) as (dc & EC & DC & _). destruct (C85_number h H) as (dh & EH & DH & _).
  rewrite EA, EC, EH. rewrite !Forall_cons. cbn [fst snd]. split; [exists da; split; [left; reflexivity|exact DA]|].
  split; [exists dc; split; [right; left; reflexivity|exact DC]|]. split; [|by apply Forall_nil]. exists dh. split; [right; right; left; reflexivity|exact DH].
Qed.
(** Of each tick at which the latest block is another one than at the tick before, each subscriber gets what eth_syncing would answer, and of
    other ticks nothing: [now] lists, for each tick, the latest block and the status. *)
Fixpoint news (before : N) (now : list (N * sync_status)) (out : list sync_answer) : Prop :=
  match now with
  | [] => out = []
  | (latest, s) :: r => (latest = before /\ news latest r out) \/ (latest <> before /\ exists out', out = eth_syncing s :: out' /\ news latest r out')
  end.
Theorem C110_subscribed cur hubs now h : NoDup hubs ->
  (In h hubs -> news cur now (map snd (List.filter (fun m => m.1 =? h) (ticks cur hubs now)))) /\
  (~ In h hubs -> List.filter (fun m => m.1 =? h) (ticks cur hubs now) = []).
Proof.
  intros ND.
  assert (M : forall a : sync_answer, List.filter (fun m => m.1 =? h) (map (fun x => (x, a)) hubs) = if bool_decide (h ∈ hubs) then [(h, a)] else []).
  { intros a. induction hubs as [|x q IH]; [done|]. apply NoDup_cons in ND as [NI ND]. cbn [map List.filter fst]. rewrite (IH ND).
    destruct (N.eqb_spec x h) as [->|NE].
    - rewrite (bool_decide_eq_false_2 (h ∈ q)) by done. rewrite bool_decide_eq_true_2 by (apply elem_of_cons; by left). done.
    - destruct (decide (h ∈ q)) as [I|I].
      + rewrite !bool_decide_eq_true_2; [done|apply elem_of_cons; by right|done].
      + rewrite !bool_decide_eq_false_2; [done| |done]. intros [->|J]%elem_of_cons; done. }
  revert cur. induction now as [|[latest s] r IH]; intros cur; [by split|]. cbn [ticks]. unfold notify_syncing.
  destruct (N.eqb_spec cur latest) as [->|NE].
  - cbn [app news]. destruct (IH latest) as [A B]. split; [|exact B]. intros I. left. split; [done|]. by apply A.
  - rewrite List.filter_app, M. destruct (IH latest) as [A B]. split.
    + intros I. rewrite bool_decide_eq_true_2 by (by apply elem_of_list_In). cbn [app map snd news]. right. split; [congruence|].
      eexists. split; [reflexivity|]. by apply A.
    + intros I. rewrite bool_decide_eq_false_2 by (by rewrite elem_of_list_In). cbn [app]. by apply B.
Qed.
(** No two of the first 2^64 subscriptions have the same identifier. *)
Theorem C110_ids n m : n < 2 ^ 64 -> m < 2 ^ 64 -> subscription_id n = subscription_id m -> n = m.
Proof.
  intros A B E. unfold subscription_id in E. rewrite !N.mod_small in E by done.
  pose proof (C85_bytes (be_fixed 32 n) (be_fixed_wf 32 n)) as D. rewrite E, (C85_bytes _ (be_fixed_wf 32 m)) in D.
  assert (V : be_val (be_fixed 32 m) = be_val (be_fixed 32 n)) by congruence.
  assert (S : 2 ^ 64 < 256 ^ N.of_nat 32) by (vm_compute; reflexivity).
  rewrite (be_val_fixed 32 m) in V by (eapply N.lt_trans; [exact B|exact S]). rewrite (be_val_fixed 32 n) in V by (eapply N.lt_trans; [exact A|exact S]). by symmetry.
Qed.

Section Progress.
  Variable P : params.
  (** A history, newest first, with the outcome of the update in which a run would end at each step; SYNC_STATUS along it, from a fresh process. *)
  Definition whist := list (event P * bool).
  Definition calls (h : whist) : list (event P) := map fst h.
  Fixpoint wrun (n0 : node P) (h : whist) : sync_status :=
    match h with [] => NotSyncing | (e, ok) :: r => watch P (run P n0 (calls r)) (wrun n0 r) e ok end.

  (** a run of synchronisation is under way *)
  Definition running_task (n : node P) : Prop := exists r c t a, TRun r c t a ∈ nd_tasks P n.
  (** every update so far succeeded *)
  Definition all_updated (h : whist) : Prop := Forall (fun x => x.2 = true) h.

  Definition tracks (n : node P) (s : sync_status) : Prop :=
    match nd_tasks P n with
    | [TRun r cur target agent] => s = Syncing (st_last (nd_status P n)) cur target /\ target = N.min r (st_last (nd_status P n) + 50)
    | _ => True
    end.
  Lemma tracks_same n n' s : tracks n s -> nd_tasks P n' = nd_tasks P n ->
    (nd_status P n' = nd_status P n \/ nd_commit_lock P n = false) -> (exists h, shape P h n) -> tracks n' s.
  Proof using.
    unfold tracks. intros T E [->|L] [h S]; rewrite E; [exact T|].
    destruct S as [(_ & _ & ->)|(_ & t & r & -> & _ & X)]; [done|]. destruct t; [done|done|]. destruct X as (_ & X & _). congruence.
  Qed.
  Lemma tracks_run n0 h : idle P n0 -> tracks (run P n0 (calls h)) (wrun n0 h).
  Proof using.
    intros ID. induction h as [|[e ok] h IH]; [unfold tracks; cbn; by rewrite (proj2 (proj2 ID))|].
    cbn [calls map fst wrun]. change (map fst h) with (calls h). cbn [run]. pose proof (shape_run P n0 (calls h) ID) as SH.
    revert IH SH. generalize (run P n0 (calls h)) (wrun n0 h). intros n s IH SH. assert (EX : exists x, shape P x n) by (exists (calls h); exact SH).
    destruct e as [next i|next hash p i|st c p pf f|r|k i|e].
    - change (watch P n s (VPropose P next i) ok) with s. cbn [step]. apply (tracks_same n); [done| | |done]; unfold get_proposal;
        destruct (_ <=? _); [auto| |auto|]; destruct (negb _); auto.
    - change (watch P n s (VCheck P next hash p i) ok) with s. cbn [step].
      assert (E : nd_tasks P (check_block P n next hash p i).1 = nd_tasks P n /\ nd_status P (check_block P n next hash p i).1 = nd_status P n).
      { unfold check_block. destruct (_ <=? _); [done|]. destruct (negb _); [done|]. destruct (negb _); [done|].
        destruct (if bool_decide _ then _ else _); [|done|done]. by destruct (ci_full _ _ _). }
      destruct E as [E1 E2]. apply (tracks_same n); auto.
    - change (watch P n s (VCommit P st c p pf f) ok) with s. cbn [step].
      destruct (commit_status P n st c p pf f) as ([E|(_ & _ & L & _)] & E1 & E2 & E3); apply (tracks_same n); auto.
    - change (watch P n s (VAnnounce P r) ok) with s. cbn [step]. unfold announce.
      destruct (nd_syncing P n) eqn:SY; [done|]. destruct (_ =? 0); [done|]. destruct (_ <=? _); [done|].
      destruct SH as [(_ & L & T)|(F & _)]; [|congruence]. unfold tracks. cbn. rewrite T. cbn. by destruct (_ =? r - 1).
    - cbn [step]. unfold watch, task_step. destruct SH as [(SY & L & T)|(SY & t & r & T & A & X)].
      + rewrite T, lookup_nil. unfold tracks. by rewrite T.
      + rewrite T. destruct k as [|k]; [|exact IH]. cbn [lookup list_lookup].
        assert (FIN : forall n' rel s', nd_tasks P n' = [t] -> tracks (finish P n' 0 rel) s').
        { intros n' rel s' T'. unfold tracks, finish. cbn. by rewrite T'. }
        destruct t as [r'|r'|r' cu ta ag].
        * destruct (_ =? _); [by apply FIN|]. done.
        * destruct X as [-> L]. rewrite L. destruct (N.leb_spec r (st_last (nd_status P n))); [by apply FIN|].
          destruct (N.leb_spec U64 (st_last (nd_status P n) + ONCE_SYNC_BLOCK_LIMIT)); [by apply FIN|].
          unfold tracks. cbn. unfold ss_start. split; [reflexivity|]. unfold ONCE_SYNC_BLOCK_LIMIT in *.
          destruct (N.ltb_spec r (st_last (nd_status P n) + 50)); lia.
        * unfold tracks in IH. rewrite T in IH. destruct IH as [IH TG].
          destruct (N.ltb_spec cu ta) as [C|C]; [|by apply FIN]. destruct i as [i|]; [|by apply FIN].
          destruct (sync_plan P n cu ag i) as [[[b txs] x]| |]; [|by apply FIN|by apply FIN].
          unfold tracks. cbn. rewrite IH. cbn. split; [reflexivity|exact TG].
    - change (watch P n s (VCache P e) ok) with s. cbn [step]. destruct (cache_event _ _); [|done]. apply (tracks_same n); auto.
  Qed.

  (** During a run eth_syncing tells the height at which the run began, the height reached, and where it is going: at most 50 blocks further
      and never beyond what a peer announced. *)
  Theorem C110_progress n0 h remote current target agent : idle P n0 -> TRun remote current target agent ∈ nd_tasks P (run P n0 (calls h)) ->
    let start := st_last (nd_status P (run P n0 (calls h))) in
    wrun n0 h = Syncing start current target /\ start <= current <= target /\ target = N.min remote (start + 50) /\
    st_last agent = current /\ VAnnounce P remote ∈ calls h.
  Proof using.
    intros ID IN. cbn zeta. destruct (C41_run_bounds P _ _ _ _ _ _ ID IN) as (A & B & _ & _ & AG & _).
    pose proof (tracks_run n0 h ID) as T. unfold tracks in T. pose proof (proj1 (C41_one_run P n0 (calls h) ID)) as L.
    destruct (nd_tasks P (run P n0 (calls h))) as [|t [|t' l]]; [by apply elem_of_nil in IN| |cbn in L; lia].
    apply elem_of_list_singleton in IN. subst t. destruct T as [T1 T2]. auto.
  Qed.

  (** When the updates at the end of runs succeed, a node that is not in a run says so. *)
  Theorem C110_idle n0 h : idle P n0 -> all_updated h -> ~ running_task (run P n0 (calls h)) -> wrun n0 h = NotSyncing.
  Proof using.
    intros ID U NR.
    assert (K : (exists r c t a, nd_tasks P (run P n0 (calls h)) = [TRun r c t a]) \/ wrun n0 h = NotSyncing).
    2:{ destruct K as [(r & c & t & a & T)|K]; [|exact K]. destruct NR. exists r, c, t, a. rewrite T. by apply elem_of_list_singleton. }
    clear NR. induction h as [|[e ok] h IH]; [by right|]. apply Forall_cons in U as [OK U]. cbn in OK. subst ok. specialize (IH U).
    cbn [calls map fst wrun]. change (map fst h) with (calls h). cbn [run]. pose proof (shape_run P n0 (calls h) ID) as SH.
    revert IH SH. generalize (run P n0 (calls h)) (wrun n0 h). intros n s IH SH.
    destruct e as [next i|next hash p i|st c p pf f|r|k i|e].
    - change (watch P n s (VPropose P next i) true) with s. cbn [step].
      assert (E : nd_tasks P (get_proposal P n next i).1 = nd_tasks P n) by (unfold get_proposal; destruct (_ <=? _); [done|]; by destruct (negb _)).
      by rewrite E.
    - change (watch P n s (VCheck P next hash p i) true) with s. cbn [step].
      assert (E : nd_tasks P (check_block P n next hash p i).1 = nd_tasks P n).
      { unfold check_block. destruct (_ <=? _); [done|]. destruct (negb _); [done|]. destruct (negb _); [done|].
        destruct (if bool_decide _ then _ else _); [|done|done]. by destruct (ci_full _ _ _). }
      by rewrite E.
    - change (watch P n s (VCommit P st c p pf f) true) with s. cbn [step].
      destruct (commit_status P n st c p pf f) as (_ & _ & _ & E). by rewrite E.
    - change (watch P n s (VAnnounce P r) true) with s. cbn [step]. unfold announce.
      destruct (nd_syncing P n) eqn:SY; [done|]. destruct (_ =? 0); [done|]. destruct (_ <=? _); [done|].
      destruct SH as [(_ & L & T)|(F & _)]; [|congruence]. destruct IH as [(r' & c & t & a & T')|IH]; [congruence|by right].
    - cbn [step]. unfold watch, task_step. destruct SH as [(SY & L & T)|(SY & t & r & T & A & X)].
      + rewrite T, lookup_nil, T. rewrite T in IH. exact IH.
      + rewrite T. rewrite T in IH. destruct k as [|k]; [|assert (Z : [t] !! S k = None) by reflexivity; rewrite Z, T; exact IH]. cbn [lookup list_lookup].
        destruct t as [r'|r'|r' cu ta ag].
        * destruct IH as [(? & ? & ? & ? & IH)|IH]; [congruence|]. destruct (_ =? _); by right.
        * destruct IH as [(? & ? & ? & ? & IH)|IH]; [congruence|]. destruct X as [-> L]. rewrite L.
          destruct (_ <=? _); [by right|]. destruct (_ <=? _); [by right|]. left. cbn. eauto.
        * destruct (_ <? _); [|by right]. destruct i as [i|]; [|by right].
          destruct (sync_plan P n cu ag i) as [[[b txs] x]| |]; [|by right|by right]. left. cbn. eauto.
    - change (watch P n s (VCache P e) true) with s. cbn [step]. by destruct (cache_event _ _).
  Qed.

  (** no peer announces more than the node has *)
  Fixpoint no_news (n0 : node P) (h k : whist) : Prop :=
    match k with
    | [] => True
    | (e, _) :: r => no_news n0 h r /\ match e with VAnnounce _ x => x <= st_last (nd_status P (run P n0 (calls (r ++ h)))) | _ => True end
    end.
  (** What an idle node says about synchronisation it goes on saying until a peer is ahead of it. *)
  Lemma says_on n0 h k : nd_tasks P (run P n0 (calls h)) = [] -> no_news n0 h k ->
    nd_tasks P (run P n0 (calls (k ++ h))) = [] /\ wrun n0 (k ++ h) = wrun n0 h.
  Proof using.
    intros T. induction k as [|[e ok] k IH]; [done|]. cbn [no_news app calls map fst wrun]. intros [N E]. destruct (IH N) as [T' W].
    change (map fst (k ++ h)) with (calls (k ++ h)). cbn [run]. revert E T' W. generalize (run P n0 (calls (k ++ h))) (wrun n0 (k ++ h)). intros n s E T' W.
    destruct e as [next i|next hash p i|st c p pf f|r|j i|e].
    - cbn [step watch]. split; [|exact W]. unfold get_proposal. destruct (_ <=? _); [done|]. by destruct (negb _).
    - cbn [step watch]. split; [|exact W]. unfold check_block. destruct (_ <=? _); [done|]. destruct (negb _); [done|]. destruct (negb _); [done|].
      destruct (if bool_decide _ then _ else _); [|done|done]. by destruct (ci_full _ _ _).
    - cbn [step watch]. split; [|exact W]. destruct (commit_status P n st c p pf f) as (_ & _ & _ & X). by rewrite X.
    - cbn [step watch]. split; [|exact W]. unfold announce. destruct (nd_syncing P n); [done|]. destruct (_ =? 0); [done|]. apply N.leb_le in E. by rewrite E.
    - cbn [step watch]. unfold task_step. rewrite T', lookup_nil. done.
    - cbn [step watch]. split; [|exact W]. by destruct (cache_event _ _).
  Qed.
End Progress.

(** A synchronisation of the two blocks of the chain of C76, seen through eth_syncing after each step. *)
Definition seen (l : list (event X)) : sync_status := wrun X x_start (rev (map (fun e => (e, true)) l)).
Example C110_seen : map (fun k => seen (take k y_fetch)) (seq 0 6) =
  [NotSyncing; NotSyncing; Syncing 0 0 2; Syncing 0 1 2; Syncing 0 2 2; NotSyncing].
Proof. vm_compute. reflexivity. Qed.
Example C110_answer : eth_syncing (seen (take 3 y_fetch)) = AObject [("startingBlock"%string, P0x ++ [48]); ("currentBlock"%string, P0x ++ [49]);
  ("highestBlock"%string, P0x ++ [50]); ("knownStates"%string, P0x ++ [48]); ("pulledStates"%string, P0x ++ [48])].
Proof. vm_compute. reflexivity. Qed.

(** A subscriber learns nothing of the end of a synchronisation: in this run of C76, with a tick after each step, what it gets last says that the
    synchronisation is going on, however long the node then stays where it is. *)
Fixpoint seen_last (cur : N) (l : list (N * sync_status)) : N := match l with [] => cur | (x, _) :: r => seen_last x r end.
Lemma ticks_app cur hubs a b : ticks cur hubs (a ++ b) = ticks cur hubs a ++ ticks (seen_last cur a) hubs b.
Proof.
  revert cur. induction a as [|[x s] a IH]; intros cur; [done|]. cbn [app ticks seen_last]. unfold notify_syncing.
  destruct (N.eqb_spec cur x) as [->|_]; [exact (IH x)|]. by rewrite (IH x), (assoc_L (++)).
Qed.
Lemma ticks_still cur hubs s k : ticks cur hubs (repeat (cur, s) k) = [].
Proof. induction k as [|k IH]; [done|]. cbn [repeat ticks]. unfold notify_syncing. by rewrite N.eqb_refl. Qed.
Definition latest_number (n : node X) : N := match get_latest_block (I X) (store X n) with Ok b => h_number (BlockModel.b_header b) | _ => 0 end.
Definition each_step (l : list (event X)) : list (N * sync_status) :=
  map (fun k => (latest_number (forward X x_start (take k l)), seen (take k l))) (seq 0 (S (length l))).
Theorem C110_end_refuted : exists l, seen l = NotSyncing /\ latest_number (forward X x_start l) = 2 /\
  forall k, last (map snd (ticks 0 [7] (each_step l ++ repeat (2, NotSyncing) k))) = Some (eth_syncing (Syncing 0 2 2)).
Proof.
  exists y_fetch. split; [vm_compute; reflexivity|]. split; [vm_compute; reflexivity|]. intros k.
  assert (E : each_step y_fetch = [(0, NotSyncing); (0, NotSyncing); (0, Syncing 0 0 2); (1, Syncing 0 1 2); (2, Syncing 0 2 2); (2, NotSyncing)]) by (vm_compute; reflexivity).
  rewrite ticks_app, E. cbn [seen_last]. rewrite ticks_still, app_nil_r. vm_compute. reflexivity.
Qed.

(** A run whose last update fails is over, but eth_syncing goes on reporting it, whatever happens, until a peer is ahead again. *)
Definition y_stuck : whist X := rev (map (fun e => (e, true)) (take 4 y_fetch) ++ map (fun e => (e, false)) (drop 4 y_fetch)).
Theorem C110_stuck_refuted : exists n0 h, idle X n0 /\ idle X (run X n0 (calls X h)) /\ st_last (nd_status X (run X n0 (calls X h))) = 2 /\
  forall k, no_news X n0 h k -> ~ running_task X (run X n0 (calls X (k ++ h))) /\ wrun X n0 (k ++ h) = Syncing 0 2 2.
Proof.
  exists x_start, y_stuck. split; [exact (proj1 X_start)|].
  assert (E : calls X y_stuck = rev y_fetch).
  { unfold calls, y_stuck. rewrite map_rev, map_app, !map_map. cbn [fst]. by rewrite !map_id, take_drop. }
  assert (ID : idle X (run X x_start (calls X y_stuck))) by (rewrite E; exact (proj1 (proj1 C76_example))).
  split; [exact ID|]. split; [rewrite E; vm_compute; reflexivity|]. intros k N.
  destruct (says_on X x_start y_stuck k (proj2 (proj2 ID)) N) as [T W]. split.
  - intros (r & c & t & a & I). rewrite T in I. by apply elem_of_nil in I.
  - rewrite W. vm_compute. reflexivity.
Qed.
(** The highest block is the end of the current batch, not the height that a peer announced. *)
Theorem C110_highest_refuted : exists n0 h remote, idle X n0 /\ calls X h = [VTask X 0 None; VAnnounce X remote] /\
  wrun X n0 h = Syncing 0 0 50 /\ 50 < remote.
Proof.
  exists x_start, [(VTask X 0 None, true); (VAnnounce X 1000, true)], 1000. split; [exact (proj1 X_start)|]. split; [reflexivity|].
  split; [vm_compute; reflexivity|lia].
Qed.
(** The starting block is reset although the announced height was not reached. *)
Definition y_again : list (event X) := take 3 y_fetch ++ [VTask X 0 None; VAnnounce X 2; VTask X 0 None; VTask X 0 None].
Theorem C110_restarted_refuted : exists l a b, l = a ++ b /\ seen a = Syncing 0 1 2 /\ seen l = Syncing 1 1 2 /\
  (forall k, st_last (nd_status X (run X x_start (rev (take k l)))) < 2).
Proof.
  exists y_again, (take 3 y_again), (drop 3 y_again). split; [by rewrite take_drop|]. split; [vm_compute; reflexivity|]. split; [vm_compute; reflexivity|].
  assert (A : forall k, (k <= 7)%nat -> st_last (nd_status X (run X x_start (rev (take k y_again)))) < 2).
  { intros k K. do 8 (destruct k as [|k]; [vm_compute; reflexivity|]). lia. }
  intros k. destruct (Nat.le_gt_cases k 7) as [K|K]; [by apply A|]. rewrite take_ge; [|change (length y_again) with 7%nat; lia].
  rewrite <- (take_ge y_again 7) by done. by apply A.
Qed.

(** Servers as in devtools/chain/config.toml *)
Example C110_ex : let c := ApiConfig (Some 8000) (Some 8010) 25000 10485760 in exists h w, http_of c h /\ ws_of c w /\
  serve h 0 [1] "eth_chainId" (fun _ => [2]) = RAnswer [2] /\ serve w 3 [1] "eth_subscribe" (fun _ => [2]) = RAnswer [2] /\
  serve h 0 [1] "eth_subscribe" (fun _ => [2]) = RNotFound.
Proof.
  cbn zeta. set (c := ApiConfig _ _ _ _). assert (R : exists x, run_servers c (fun _ => true) = Ok (Some x.1, Some x.2)).
  { destruct (C110_start c (fun _ => true) (fun _ _ => eq_refl)) as (h & w & R & A & B). destruct h as [h|]; [|done]. destruct w as [w|]; [|done]. by exists (h, w). }
  destruct R as [[h w] R]. cbn in R. assert (H : http_of c h) by (exists (Some w), (fun _ => true); exact R).
  assert (W : ws_of c w) by (exists (Some h), (fun _ => true); exact R). exists h, w. split; [exact H|]. split; [exact W|]. unfold serve.
  destruct (http_inv c h H) as (_ & _ & _ & -> & -> & -> & ->). destruct (ws_inv c w W) as (_ & _ & _ & -> & -> & -> & ->).
  split; [vm_compute; reflexivity|]. split; vm_compute; reflexivity.
Qed.
Example C110_node : chain_id_text 2022 = P0x ++ [55; 101; 54] /\ net_version_text 2022 = [50; 48; 50; 50] /\
  web3_sha3 P0x = Some (P0x ++ hex_encode (keccak256 [])).
Proof. split; [vm_compute; reflexivity|]. split; [vm_compute; reflexivity|]. reflexivity. Qed.

Print Assumptions C110_start.
Print Assumptions C110_start_fails.
Print Assumptions C110_documented.
Print Assumptions C110_same.
Print Assumptions C110_names.
Print Assumptions C110_submit_work_refuted.
Print Assumptions C110_requests.
Print Assumptions C110_answers.
Print Assumptions C110_ws_answers_refuted.
Print Assumptions C110_codes.
Print Assumptions C110_chain_id.
Print Assumptions C110_sha3.
Print Assumptions C110_told.
Print Assumptions C110_progress.
Print Assumptions C110_idle.
Print Assumptions C110_subscribed.
Print Assumptions C110_ids.
Print Assumptions C110_end_refuted.
Print Assumptions C110_stuck_refuted.
Print Assumptions C110_highest_refuted.
Print Assumptions C110_restarted_refuted.
