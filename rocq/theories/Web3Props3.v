(** C79, C80: a concrete chain that meets the hypotheses, and the fields and requests that are answered wrongly. *)
From Verif Require Import Bytes BytesProofs Rlp RlpProofs Keccak TxModel TxSpec TxProofs StorageModel StorageProofs StorageProps BlockModel BlockProofs BloomModel BloomProofs BloomProps Web3Model Web3Props Web3Props2.
From stdpp Require Import base gmap list.
From Coq Require Import Lia.
Local Open Scope N_scope.
Notation block := BlockModel.block (only parsing).

(* ------------------------------------------------------------------ *)
(** * The chain: genesis and one block with two transactions *)

Definition g_alice : bytes := repeat 10 20.
Definition g_bob : bytes := repeat 11 20.
Definition g_code : bytes := [96; 0; 96; 0; 253].
Definition g_codehash : bytes := Eval vm_compute in keccak256 g_code.
Definition g_sig (v : N) : sigc := SigC (repeat 3 32) (repeat 4 32) v.
Definition g_u1 : utx := Utx (Legacy (LegacyTx 4 7000000000 50000 (Call g_bob) 5 [1; 2])) (Some (g_sig 0)) (Some 2022) [].
Definition g_u2 : utx := Utx (Eip1559 (Eip1559Tx 5 1000000000 8000000000 90000 Create 0 [96; 1] [AccessItem g_bob [repeat 1 32]])) (Some (g_sig 1)) (Some 2022) [].
Definition g_set (u : utx) (h : bytes) : utx := Utx (u_unsigned u) (u_sig u) (u_chain u) h.
Definition g_h1 : bytes := Eval vm_compute in get_hash keccak256 g_u1.
Definition g_h2 : bytes := Eval vm_compute in get_hash keccak256 g_u2.
Definition g_t1 : stx := Stx (g_set g_u1 g_h1) g_alice (Some (repeat 1 64)).
Definition g_t2 : stx := Stx (g_set g_u2 g_h2) g_alice (Some (repeat 1 64)).
Definition g_log (n : N) : log := Log_ g_bob [repeat n 32] [n].
Definition g_exec : exec_resp := ExecResp_ (repeat 42 32) (repeat 43 32) 71000
  [TxResp_ (XSucceed 1) [] 30000 20000 0 [g_log 1; g_log 2] None false;
   TxResp_ (XRevert 0) [] 41000 49000 0 [g_log 3] (Some (repeat 12 32)) false].
Definition g_hdr (n : N) (root : bytes) (gas : N) : header :=
  Header_ V0 (repeat n 32) (repeat 2 20) root (repeat 4 32) (repeat 5 32) (repeat 43 32)
    (repeat 7 256) (1700000000000 + n) n gas 30000000 [[1; 2; 3]; []; repeat 9 60] 1337 (Proof_ n 2 (repeat 17 32) (repeat 200 192) [224]) 0 2022.
Definition g_b0 : block := Block_ (g_hdr 0 (repeat 41 32) 0) [].
Definition g_b1 : block := Block_ (g_hdr 1 (repeat 42 32) 71000) [g_h1; g_h2].
Definition g_x0 : bytes := Eval vm_compute in hash_of keccak256 g_b0.
Definition g_x1 : bytes := Eval vm_compute in hash_of keccak256 g_b1.
Definition g_txs : list stx := [g_t1; g_t2].
Definition g_rs : list receipt := Eval vm_compute in
  match generate_receipts_and_logs keccak256 g_b1 (map (fun t => (u_hash (s_tx t), s_sender t)) g_txs) g_exec with
  | Ok (rs, _) => rs | _ => [] end.
Notation G := (Web3Model.W keccak256).
Definition g_store : list (sevent G) :=
  [ESave G g_b1; ERcpts G 1 g_rs; ETxs G 1 g_txs; ECode G (repeat 8 32) g_codehash g_code; ESave G g_b0].
(** States: a contract with one storage slot, and in block 1 also Alice's account. *)
Definition g_state0 : wstate := fun a => if beqb a g_bob then Some (SAcct 1 900 g_codehash (fun p => if p =? 5 then 77 else 0)) else None.
Definition g_state1 : wstate := fun a =>
  if beqb a g_bob then Some (SAcct 1 905 g_codehash (fun p => if p =? 5 then 77 else 0))
  else if beqb a g_alice then Some (SAcct 6 1000 NIL_DATA (fun _ => 0)) else None.
Definition g_slots : bytes -> option bytes := fun k => if beqb k (be_fixed 32 5) then Some (enc_uint 77) else None.
Definition g_trie : bytes -> option (bytes -> option bytes) := fun r =>
  if beqb r (repeat 41 32) then Some (fun a => if beqb a g_bob then Some (enc_acct (Acct 1 900 (repeat 50 32) g_codehash)) else None)
  else if beqb r (repeat 42 32) then Some (fun a => if beqb a g_bob then Some (enc_acct (Acct 1 905 (repeat 50 32) g_codehash))
    else if beqb a g_alice then Some (enc_acct (Acct 6 1000 RLP_NULL_ROOT NIL_DATA)) else None)
  else if beqb r (repeat 50 32) then Some g_slots
  else if beqb r RLP_NULL_ROOT then Some (fun _ => None) else None.
(** A third transaction waits in the pool; so does, still, the first one. *)
Definition g_u3 : utx := Utx (Legacy (LegacyTx 6 7000000000 50000 (Call g_bob) 5 [])) (Some (g_sig 0)) (Some 2022) [].
Definition g_h3 : bytes := Eval vm_compute in get_hash keccak256 g_u3.
Definition g_t3 : stx := Stx (g_set g_u3 g_h3) g_alice (Some (repeat 1 64)).
Definition g_pool : bytes -> option stx := fun x => if beqb x g_h1 then Some g_t1 else if beqb x g_h3 then Some g_t3 else None.
Definition g_snap : snap keccak256 := Snap keccak256 g_store g_trie g_pool (fun a => if beqb a g_alice then (1, Some 1) else (0, None)) (fun _ => Ok tt).
Definition g_v : nat -> snap keccak256 := fun _ => g_snap.

Lemma g_hash0 : hash_of keccak256 g_b0 = g_x0. Proof. vm_compute. reflexivity. Qed.
Lemma g_hash1 : hash_of keccak256 g_b1 = g_x1. Proof. vm_compute. reflexivity. Qed.

Lemma g_views : views keccak256 g_v.
Proof.
  split; [|intros i; apply later_refl]. intros i. change (sn_store _ (g_v i)) with g_store. split.
  - unfold g_store. repeat (apply Forall_cons; split); [..|apply Forall_nil; done].
    + cbn. lia.
    + split; [lia|]. repeat constructor.
    + split; [lia|]. repeat constructor.
    + done.
    + cbn. lia.
  - exists (fun n => if n =? 1 then g_b1 else g_b0),
      (fun x => if beqb x g_x0 then 0 else 1),
      (fun x => if beqb x g_h1 then g_t1 else g_t2),
      (fun x => match g_rs with a :: b :: _ => if beqb x g_h1 then a else b | _ => Receipt_ [] 0 [] 0 [] 0 [] [] 0 None [] (XRevert 0) false end),
      (fun x => if beqb x (repeat 8 32) then g_codehash else g_code).
    unfold g_store. repeat (apply Forall_cons; split); [..|apply Forall_nil; done]; split; try done.
    all: try (cbn [b_hash blk_hash]; change (b_hash G g_b1) with (hash_of keccak256 g_b1); change (b_hash G g_b0) with (hash_of keccak256 g_b0); rewrite ?g_hash0, ?g_hash1; split; vm_compute; reflexivity).
    all: intros t T; unfold g_txs, g_rs in T; rewrite !elem_of_cons, elem_of_nil in T; destruct T as [->|[->|[]]]; split; vm_compute; reflexivity.
Qed.
Lemma g_saved b : saved keccak256 g_snap b <-> b = g_b1 \/ b = g_b0.
Proof.
  unfold saved. change (sn_store _ g_snap) with g_store. unfold g_store. rewrite !elem_of_cons, !elem_of_nil. split.
  - intros [[H|[H|[H|[H|[H|[]]]]]]|[H|[H|[H|[H|[H|[]]]]]]]; try discriminate H; injection H as ->; auto.
  - intros [-> | ->]; left; [left; done|]. do 4 right. left. done.
Qed.
Lemma g_committed : committed keccak256 g_snap g_b1 g_txs g_exec.
Proof.
  split.
  - apply g_saved. by left.
  - change (sn_store _ g_snap) with g_store. unfold g_store. apply elem_of_list_further, elem_of_list_further, elem_of_list_here.
  - exists g_rs, [[g_log 1; g_log 2]; [g_log 3]]. split; [vm_compute; reflexivity|].
    change (sn_store _ g_snap) with g_store. unfold g_store. apply elem_of_list_further, elem_of_list_here.
  - reflexivity.
  - reflexivity.
  - cbn. lia.
  - repeat constructor.
Qed.
Lemma g_agrees : pool_agrees keccak256 g_v g_txs.
Proof.
  intros i t t' T. change (sn_pool _ (g_v i)) with g_pool. unfold g_txs in T. rewrite !elem_of_cons, elem_of_nil in T.
  unfold g_pool. destruct T as [->|[->|[]]].
  - change (beqb (u_hash (s_tx g_t1)) g_h1) with true. by intros [= <-].
  - change (beqb (u_hash (s_tx g_t2)) g_h1) with false. change (beqb (u_hash (s_tx g_t2)) g_h3) with false. done.
Qed.
Lemma g_renderable : renderable g_t1 /\ renderable g_t2 /\ renderable g_t3.
Proof. split; [|split]; (split; [cbn; lia|]); intros g [= <-] _; cbn; auto. Qed.
Lemma g_latest : latest_at G g_store = Some g_b1.
Proof. reflexivity. Qed.
Lemma g_slots_held : slots_held keccak256 g_snap (repeat 50 32) (fun p => if p =? 5 then 77 else 0).
Proof.
  exists g_slots. split; [reflexivity|]. intros p P. unfold g_slots. destruct (beqb (be_fixed 32 p) (be_fixed 32 5)) eqn:E.
  - apply beqb_eq in E. apply be_fixed_inj in E; [|cbn; lia|cbn; lia]. subst. split; [reflexivity|vm_compute; reflexivity].
  - destruct (p =? 5) eqn:F; [|done]. apply N.eqb_eq in F. subst. done.
Qed.
Lemma g_state_0 : state_of keccak256 g_snap g_b0 g_state0.
Proof.
  eexists. split; [reflexivity|]. intros a. unfold g_state0. destruct (beqb a g_bob); [|done].
  exists (repeat 50 32). split; [reflexivity|]. split; [|apply g_slots_held].
  repeat split; try (vm_compute; reflexivity); apply wf_bytesb_spec; reflexivity.
Qed.
Lemma g_state_1 : state_of keccak256 g_snap g_b1 g_state1.
Proof.
  eexists. split; [reflexivity|]. intros a. unfold g_state1. destruct (beqb a g_bob).
  { exists (repeat 50 32). split; [reflexivity|]. split; [|apply g_slots_held].
    repeat split; try (vm_compute; reflexivity); apply wf_bytesb_spec; reflexivity. }
  destruct (beqb a g_alice); [|done].
  exists RLP_NULL_ROOT. split; [reflexivity|]. split.
  - repeat split; try (vm_compute; reflexivity); apply wf_bytesb_spec; reflexivity.
  - eexists. split; [reflexivity|]. done.
Qed.
Lemma g_names : names keccak256 g_snap (Some (BNum 1)) g_b1 /\ names keccak256 g_snap (Some (BNum 0)) g_b0 /\
  names keccak256 g_snap (Some BEarliest) g_b0 /\ names keccak256 g_snap (Some (BHash g_x0)) g_b0 /\
  names keccak256 g_snap (Some (BHash g_x1)) g_b1 /\ names keccak256 g_snap None g_b1.
Proof.
  assert (S0 : saved keccak256 g_snap g_b0) by (apply g_saved; by right).
  assert (S1 : saved keccak256 g_snap g_b1) by (apply g_saved; by left).
  split; [by apply (names_number keccak256 g_snap g_b1)|]. split; [by apply (names_number keccak256 g_snap g_b0)|].
  split; [by apply names_earliest|].
  split; [rewrite <- g_hash0; by apply names_hash|]. split; [rewrite <- g_hash1; by apply names_hash|].
  apply names_latest; [apply elem_of_list_here|reflexivity].
Qed.

(* ------------------------------------------------------------------ *)
(** * The hypotheses are met *)

Definition g_evm : bytes -> xcall -> exit_reason * bytes * N := fun _ k => (XSucceed 1, [7], 21000 + 100 * k_number k).
Definition g_req : creq := CReq (Some g_alice) (Some g_bob) None None (Some 50000) None (Some [1]) None.
Lemma g_allowed : call_allowed g_req.
Proof. split; [by left| | |]; [intros g [= <-]; lia|done|]. intros a [= <-]. discriminate. Qed.

Example C79_ex :
  views keccak256 g_v /\ names keccak256 g_snap (Some (BHash g_x0)) g_b0 /\ names keccak256 g_snap None g_b1 /\
  state_of keccak256 g_snap g_b0 g_state0 /\ state_of keccak256 g_snap g_b1 g_state1 /\ call_allowed g_req /\
  exec _ g_v 0 (eth_getBalance g_bob (Some (BHash g_x0))) = Ok 900 /\
  exec _ g_v 0 (eth_getBalance g_bob None) = Ok 905 /\
  exec _ g_v 0 (eth_getTransactionCount g_alice (Some (BNum 1))) = Ok 6 /\
  exec _ g_v 0 (eth_getCode g_bob (Some BEarliest)) = Ok g_code /\
  exec _ g_v 0 (eth_getStorageAt g_bob 5 (Some (BNum 0))) = Ok (be_fixed 32 77) /\
  exec _ g_v 0 eth_blockNumber = Ok 1 /\
  exec _ g_v 0 (eth_call g_evm g_req (Some (BHash g_x0))) = Ok [7] /\
  exec _ g_v 0 (eth_estimateGas g_evm g_req (Some (BNum 0))) = Ok 26250.
Proof.
  split; [exact g_views|]. destruct g_names as (_ & _ & _ & N0 & _ & NL). split; [exact N0|]. split; [exact NL|].
  split; [exact g_state_0|]. split; [exact g_state_1|]. split; [exact g_allowed|].
  repeat (split; [vm_compute; reflexivity|]). vm_compute. reflexivity.
Qed.

Definition g_w : wtx := Eval vm_compute in
  match exec keccak256 g_v 0 (eth_getTransactionByHash g_h2) with
  | Ok (Some w) => w | _ => WTx 0 None None None [] 0 [] None 0 0 0 None None [] [] None [] None 0 (inl 0) (inl 0) end.
(** A block whose second transaction is asked for in four ways, and its receipt. *)
Example C80_ex :
  views keccak256 g_v /\ committed keccak256 g_snap g_b1 g_txs g_exec /\ pool_agrees keccak256 g_v g_txs /\ Forall renderable g_txs /\
  (exists w, exec _ g_v 0 (eth_getTransactionByHash g_h2) = Ok (Some w) /\
     exec _ g_v 0 (eth_getTransactionByBlockHashAndIndex g_x1 1) = Ok (Some w) /\
     exec _ g_v 0 (eth_getTransactionByBlockNumberAndIndex (BNum 1) 1) = Ok (Some w) /\
     describes g_t2 w /\ located w 1 g_x1 1) /\
  (exists r, exec _ g_v 0 (eth_getTransactionReceipt g_h2) = Ok (Some r) /\ wr_status r = 0 /\ wr_gas r = 41000 /\ wr_index r = 1) /\
  exec _ g_v 0 (eth_getTransactionByBlockNumberAndIndex (BNum 1) 2) = Ok None /\
  exec _ g_v 0 (eth_getBlockTransactionCountByHash g_x1) = Ok 2.
Proof.
  destruct g_renderable as (R1 & R2 & _).
  split; [exact g_views|]. split; [exact g_committed|]. split; [exact g_agrees|]. split; [apply Forall_cons; split; [exact R1|]; apply Forall_cons; split; [exact R2|]; by apply Forall_nil|].
  split.
  { destruct (C80_transaction keccak256 g_v g_b1 g_txs g_exec 1 g_t2 g_views g_committed g_agrees eq_refl R2) as (w & E & D & L).
    exists g_w. rewrite g_hash1 in L.
    assert (E' : exec keccak256 g_v 0 (eth_getTransactionByHash g_h2) = Ok (Some g_w)) by (vm_compute; reflexivity).
    change (u_hash (s_tx g_t2)) with g_h2 in E. assert (w = g_w) as -> by (rewrite E' in E; congruence).
    split; [exact E'|]. split; [vm_compute; reflexivity|]. split; [vm_compute; reflexivity|]. by split. }
  split; [eexists; split; [vm_compute; reflexivity|]; split; [reflexivity|]; split; reflexivity|].
  split; vm_compute; reflexivity.
Qed.
Example C80_pending_ex : never_committed keccak256 g_v g_h3 /\ sn_pool _ g_snap g_h3 = Some g_t3 /\ renderable g_t3 /\
  never_committed keccak256 g_v (repeat 9 32) /\ sn_pool _ g_snap (repeat 9 32) = None.
Proof.
  assert (NC : forall x, beqb x g_h1 = false -> beqb x g_h2 = false -> beqb x g_x0 = false -> beqb x g_x1 = false -> never_committed keccak256 g_v x).
  { intros x E1 E2 E3 E4 i e. change (sn_store _ (g_v i)) with g_store. unfold g_store.
    assert (NE : forall y, beqb x y = false -> y <> x). { intros y E ->. by rewrite (proj2 (beqb_eq x x) eq_refl) in E. }
    rewrite !elem_of_cons, elem_of_nil.
    intros [->|[->|[->|[->|[->|[]]]]]]; unfold mentions_hash; [|..].
    - change (b_hash G g_b1) with (hash_of keccak256 g_b1). rewrite g_hash1. by apply NE.
    - change (map (r_hash G) g_rs) with [g_h1; g_h2]. rewrite !elem_of_cons, elem_of_nil. intros [-> |[-> |[]]]; by eapply NE.
    - change (map (t_hash G) g_txs) with [g_h1; g_h2]. rewrite !elem_of_cons, elem_of_nil. intros [-> |[-> |[]]]; by eapply NE.
    - auto.
    - change (b_hash G g_b0) with (hash_of keccak256 g_b0). rewrite g_hash0. by apply NE. }
  split; [apply NC; reflexivity|]. split; [reflexivity|]. split; [apply g_renderable|]. split; [apply NC; reflexivity|]. reflexivity.
Qed.

(* ------------------------------------------------------------------ *)
(** * Requests that name no block, or another one *)

Notation exec := (exec keccak256).
Notation views := (views keccak256).
Notation saved := (saved keccak256).
Notation hash_of := (hash_of keccak256).

(** A hash that belongs to no block is answered from the latest one. *)
Theorem C79_unknown_hash_refuted : exists v x a n, views v /\ (forall b, saved (v 0%nat) b -> hash_of b <> x) /\
  0 < n /\ exec v 0 (eth_getBalance a (Some (BHash x))) = Ok n.
Proof.
  exists g_v, (repeat 9 32), g_alice, 1000. split; [exact g_views|]. split.
  - intros b S. apply g_saved in S as [-> | ->]; rewrite ?g_hash0, ?g_hash1; discriminate.
  - split; [lia|]. vm_compute. reflexivity.
Qed.
(** The hash of a transaction is taken as the hash of the block that contains it. *)
Theorem C79_tx_hash_refuted : exists v x a n, views v /\ (forall b, saved (v 0%nat) b -> hash_of b <> x) /\
  0 < n /\ exec v 0 (eth_getTransactionCount a (Some (BHash x))) = Ok n.
Proof.
  exists g_v, g_h1, g_alice, 6. split; [exact g_views|]. split.
  - intros b S. apply g_saved in S as [-> | ->]; rewrite ?g_hash0, ?g_hash1; discriminate.
  - split; [lia|]. vm_compute. reflexivity.
Qed.
(** For a number that is not reached yet every account has balance and nonce 0, though it has had more in all blocks. *)
Theorem C79_future_refuted : exists v n a, views v /\ (forall b, saved (v 0%nat) b -> h_number (b_header b) < n) /\
  (forall b, saved (v 0%nat) b -> exists w, state_of keccak256 (v 0%nat) b w /\ 0 < sa_balance (acct_of w a)) /\
  exec v 0 (eth_getBalance a (Some (BNum n))) = Ok 0 /\ exec v 0 (eth_getTransactionCount a (Some (BNum n))) = Ok 0.
Proof.
  exists g_v, 7, g_bob. split; [exact g_views|]. split.
  - intros b S. apply g_saved in S as [-> | ->]; cbn; lia.
  - split; [|split; vm_compute; reflexivity].
    intros b S. apply g_saved in S as [-> | ->]; eexists; (split; [apply g_state_1 || apply g_state_0|]); cbn; lia.
Qed.
(** eth_estimateGas runs a request for a block hash, and for "earliest", on the latest block. *)
Theorem C79_estimate_refuted : exists v i b evm q k d g, views v /\ names keccak256 (v 0%nat) (Some i) b /\ call_allowed q /\
  context_of b q k /\ evm (h_state_root (b_header b)) k = (XSucceed 1, d, g) /\
  exec v 0 (eth_call evm q (Some i)) = Ok d /\
  exec v 0 (eth_estimateGas evm q (Some i)) <> Ok (g / 4 + g) /\ exec v 0 (eth_estimateGas evm q (Some i)) <> Err.
Proof.
  exists g_v, (BHash g_x0), g_b0, g_evm, g_req.
  exists (call_of (b_header g_b0) g_req), [7], 21000.
  split; [exact g_views|]. split; [apply g_names|]. split; [exact g_allowed|]. split; [by split|].
  split; [reflexivity|]. split; [vm_compute; reflexivity|].
  assert (E : exec g_v 0 (eth_estimateGas g_evm g_req (Some (BHash g_x0))) = Ok 26375) by (vm_compute; reflexivity).
  rewrite E. split; discriminate.
Qed.
Theorem C79_estimate_earliest_refuted : exists v b evm q k d g, views v /\ names keccak256 (v 0%nat) (Some BEarliest) b /\ call_allowed q /\
  context_of b q k /\ evm (h_state_root (b_header b)) k = (XSucceed 1, d, g) /\
  exec v 0 (eth_estimateGas evm q (Some BEarliest)) <> Ok (g / 4 + g) /\ exec v 0 (eth_estimateGas evm q (Some BEarliest)) <> Err.
Proof.
  exists g_v, g_b0, g_evm, g_req. exists (call_of (b_header g_b0) g_req), [7], 21000.
  split; [exact g_views|]. split; [apply g_names|]. split; [exact g_allowed|]. split; [by split|]. split; [reflexivity|].
  assert (E : exec g_v 0 (eth_estimateGas g_evm g_req (Some BEarliest)) = Ok 26375) by (vm_compute; reflexivity).
  rewrite E. split; discriminate.
Qed.
(** The proof of an absent account claims code hash and storage hash zero, not the hashes of the empty code and the empty trie. *)
Theorem C79_absent_proof_refuted : exists v i b w a, views v /\ names keccak256 (v 0%nat) (Some i) b /\ state_of keccak256 (v 0%nat) b w /\
  w a = None /\ forall mpt, exists p, exec v 0 (eth_getProof mpt a [] i) = Ok p /\ wp_code p <> keccak256 [] /\ wp_root p <> keccak256 [128].
Proof.
  exists g_v, (BNum 1), g_b1, g_state1, (repeat 20 20). split; [exact g_views|]. split; [apply g_names|]. split; [exact g_state_1|].
  split; [reflexivity|]. intros mpt.
  pose proof (C79_proof keccak256 mpt g_v (BNum 1) g_b1 g_state1 (repeat 20 20) [] g_views (proj1 g_names) g_state_1 eq_refl (Forall_nil_2 _)) as H.
  cbn [g_state1] in H. change (g_state1 (repeat 20 20)) with (None (A := sacct)) in H. eexists. split; [exact H|].
  split; intros E; vm_compute in E; discriminate E.
Qed.

(* ------------------------------------------------------------------ *)
(** * Fields with the wrong content *)

(** What a receipt should also say: the price paid, the gas of the block up to and with the transaction, and the position
    of each log in the block. *)
Theorem C80_price_refuted : exists v b txs e i t r, views v /\ committed keccak256 (v 0%nat) b txs e /\ pool_agrees keccak256 v txs /\
  nth_error txs i = Some t /\ exec v 0 (eth_getTransactionReceipt (u_hash (s_tx t))) = Ok (Some r) /\
  wr_price r <> gas_price (u_unsigned (s_tx t)).
Proof.
  exists g_v, g_b1, g_txs, g_exec, 0%nat, g_t1. destruct (C80_receipt keccak256 g_v g_b1 g_txs g_exec 0 g_t1 _ g_views g_committed g_agrees eq_refl eq_refl) as (r & E & _).
  exists r. split; [exact g_views|]. split; [exact g_committed|]. split; [exact g_agrees|]. split; [reflexivity|]. split; [exact E|].
  assert (P : match exec g_v 0 (eth_getTransactionReceipt (u_hash (s_tx g_t1))) with Ok (Some r) => wr_price r | _ => 0 end = 30000) by (vm_compute; reflexivity).
  rewrite E in P. rewrite P. discriminate.
Qed.
Theorem C80_cumulative_refuted : exists v b txs e i t r, views v /\ committed keccak256 (v 0%nat) b txs e /\ pool_agrees keccak256 v txs /\
  nth_error txs i = Some t /\ exec v 0 (eth_getTransactionReceipt (u_hash (s_tx t))) = Ok (Some r) /\
  wr_cumulative r <> foldr N.add 0 (map x_gas_used (firstn (S i) (er_tx_resp e))).
Proof.
  exists g_v, g_b1, g_txs, g_exec, 1%nat, g_t2. destruct (C80_receipt keccak256 g_v g_b1 g_txs g_exec 1 g_t2 _ g_views g_committed g_agrees eq_refl eq_refl) as (r & E & _).
  exists r. split; [exact g_views|]. split; [exact g_committed|]. split; [exact g_agrees|]. split; [reflexivity|]. split; [exact E|].
  assert (P : match exec g_v 0 (eth_getTransactionReceipt (u_hash (s_tx g_t2))) with Ok (Some r) => wr_cumulative r | _ => 0 end = 41000) by (vm_compute; reflexivity).
  rewrite E in P. rewrite P. vm_compute. discriminate.
Qed.
Theorem C80_log_index_refuted : exists v b txs e i t r k l, views v /\ committed keccak256 (v 0%nat) b txs e /\ pool_agrees keccak256 v txs /\
  nth_error txs i = Some t /\ exec v 0 (eth_getTransactionReceipt (u_hash (s_tx t))) = Ok (Some r) /\
  nth_error (wr_logs r) k = Some l /\
  wl_index l <> N.of_nat (length (concat (map x_logs (firstn i (er_tx_resp e)))) + k).
Proof.
  exists g_v, g_b1, g_txs, g_exec, 1%nat, g_t2. destruct (C80_receipt keccak256 g_v g_b1 g_txs g_exec 1 g_t2 _ g_views g_committed g_agrees eq_refl eq_refl)
    as (r & E & _ & _ & _ & _ & _ & _ & _ & _ & _ & _ & _ & _ & _ & K).
  destruct (K 0%nat (g_log 3) eq_refl) as (l & L & _ & _ & _ & _ & _ & _ & _ & I & _).
  exists r, 0%nat, l. split; [exact g_views|]. split; [exact g_committed|]. split; [exact g_agrees|]. split; [reflexivity|]. split; [exact E|].
  split; [exact L|]. rewrite I. vm_compute. discriminate.
Qed.
(** maxFeePerGas is a constant. *)
Theorem C80_max_fee_refuted : exists v b txs e i t f w, views v /\ committed keccak256 (v 0%nat) b txs e /\ pool_agrees keccak256 v txs /\
  nth_error txs i = Some t /\ u_unsigned (s_tx t) = Eip1559 f /\
  exec v 0 (eth_getTransactionByHash (u_hash (s_tx t))) = Ok (Some w) /\ wt_max_fee w <> Some (f_gas_price f).
Proof.
  destruct g_renderable as (_ & R2 & _).
  destruct (C80_transaction keccak256 g_v g_b1 g_txs g_exec 1 g_t2 g_views g_committed g_agrees eq_refl R2) as (w & E & _).
  exists g_v, g_b1, g_txs, g_exec, 1%nat, g_t2. eexists. exists w.
  split; [exact g_views|]. split; [exact g_committed|]. split; [exact g_agrees|]. split; [reflexivity|]. split; [reflexivity|]. split; [exact E|].
  assert (P : match exec g_v 0 (eth_getTransactionByHash (u_hash (s_tx g_t2))) with Ok (Some w) => wt_max_fee w | _ => None end = Some 1337) by (vm_compute; reflexivity).
  rewrite E in P. rewrite P. discriminate.
Qed.
Print Assumptions C79_unknown_hash_refuted.
Print Assumptions C79_tx_hash_refuted.
Print Assumptions C79_future_refuted.
Print Assumptions C79_estimate_refuted.
Print Assumptions C79_estimate_earliest_refuted.
Print Assumptions C79_absent_proof_refuted.
Print Assumptions C80_price_refuted.
Print Assumptions C80_cumulative_refuted.
Print Assumptions C80_log_index_refuted.
Print Assumptions C80_max_fee_refuted.
