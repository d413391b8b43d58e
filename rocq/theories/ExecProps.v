(** C21-C27 (block execution), C57 (nonces and system contracts), C58 (supply). *)
From stdpp Require Import base gmap list.
From Verif Require Import Bytes BytesProofs Rlp TxModel BlockModel MempoolModel CellModel MetaModel MetaProofs MetaProps ExecModel ExecProofs.
From Coq Require Import Lia.
Local Open Scope N_scope.

(* ------------------------------------------------------------------------ *)
(** * Vocabulary *)

(** a call to one of the four system addresses 0xff..ff00 - 0xff..ff03 *)
Definition to_system (i : N) (t : stx) : Prop := tx_action (unsigned_of t) = Call (repeat 255 19 ++ [i]).
Definition is_system (t : stx) : Prop := exists i, i < 4 /\ to_system i t.

Definition nonce_of (s : xstate) (a : bytes) : N := a_nonce (get_account (xs_acc s) a).
Definition balance_of (s : xstate) (a : bytes) : N := balance (xs_acc s) a.
Definition price_of (t : stx) : N := gas_price (unsigned_of t).
Definition limit_of (t : stx) : N := gas_limit (unsigned_of t).

Lemma beqb_spec a b : reflect (a = b) (beqb a b).
Proof. apply iff_reflect. symmetry. apply beqb_eq. Qed.

Lemma to_iff t a : tx_to (unsigned_of t) = Some a <-> tx_action (unsigned_of t) = Call a.
Proof. unfold tx_to. destruct (tx_action _); split; congruence. Qed.

Lemma system_or_not t : is_system t \/ ~ is_system t.
Proof.
  unfold is_system, to_system. destruct (tx_action (unsigned_of t)) as [a|]; [|right; intros (i & _ & A); discriminate].
  destruct (decide (a ∈ map (fun i => repeat 255 19 ++ [i]) [0;1;2;3])) as [I|I].
  - left. apply elem_of_list_fmap in I as (i & -> & I). exists i. split; [|done].
    rewrite !elem_of_cons, elem_of_nil in I. lia.
  - right. intros (i & L & [= ->]). apply I, elem_of_list_fmap. exists i. split; [done|].
    rewrite !elem_of_cons, elem_of_nil. lia.
Qed.

Section Props.
  Variable keccak : bytes -> bytes.
  Variable meta_abi : bytes -> option meta_call.
  Context {hdr : Type} (hdr_hash : hdr -> bytes) (henc : hdr -> bytes).
  Variable ckb_abi image_abi : bytes -> option (@cell_call hdr).
  Variable evm : xstate -> N -> stx -> evm_out.
  Notation dispatch := (dispatch keccak meta_abi hdr_hash henc ckb_abi image_abi).
  Notation exec_tx := (exec_tx keccak meta_abi hdr_hash henc ckb_abi image_abi).
  Notation exec_loop := (exec_loop keccak meta_abi hdr_hash henc ckb_abi image_abi evm).
  Notation exec_block := (exec_block keccak meta_abi hdr_hash henc ckb_abi image_abi evm).

  Lemma dispatch_system s t : is_system t -> is_Some (dispatch s t).
  Proof.
    intros (i & L & A). apply to_iff in A. unfold ExecModel.dispatch. rewrite A.
    assert (i = 0 \/ i = 1 \/ i = 2 \/ i = 3) as [->|[->|[->| ->]]] by lia; eexists; reflexivity.
  Qed.
  Lemma dispatch_other s t : ~ is_system t -> dispatch s t = None.
  Proof.
    intros N. unfold ExecModel.dispatch. destruct (tx_to (unsigned_of t)) as [a|] eqn:T; [|done].
    apply to_iff in T.
    destruct (beqb_spec a NATIVE) as [->|_]; [exfalso; apply N; exists 0; split; [lia|exact T]|].
    destruct (beqb_spec a METADATA) as [->|_]; [exfalso; apply N; exists 1; split; [lia|exact T]|].
    destruct (beqb_spec a CKB) as [->|_]; [exfalso; apply N; exists 2; split; [lia|exact T]|].
    destruct (beqb_spec a IMAGE) as [->|_]; [exfalso; apply N; exists 3; split; [lia|exact T]|].
    done.
  Qed.

  (* ---------------------------------------------------------------------- *)
  (** * C27 *)

  (** The EVM has no influence on a call to a system address. *)
  Theorem C27_system_ignores_evm : forall evm' limit limit' s t, is_system t ->
    exec_tx evm limit s t = exec_tx evm' limit' s t.
  Proof using.
    intros evm' limit limit' s t S. unfold ExecModel.exec_tx.
    match goal with |- context [dispatch ?s0 t] => destruct (dispatch_system s0 t S) as [r ->] end. done.
  Qed.

  (** Every other transaction, in particular every creation, is answered by the EVM: outcome, returned
      data, gas and, on success, logs are the interpreter's. *)
  Theorem C27_others_run_evm : forall limit s t s' r, ~ is_system t -> exec_tx evm limit s t = Ok (s', r) ->
    exists s1,
      (forall a, a <> s_sender t -> get_account (xs_acc s1) a = get_account (xs_acc s) a) /\
      (let x := get_account (xs_acc s) (s_sender t) in get_account (xs_acc s1) (s_sender t) =
         Acc (a_nonce x) (a_balance x - price_of t * limit_of t) (a_storage x) (a_code x)) /\
      xs_ctx s1 = XCtx (c_number (xs_ctx s)) (s_sender t) (price_of t) (c_extra (xs_ctx s)) /\
      xs_code s1 = xs_code s /\ xs_meta s1 = xs_meta s /\ xs_cells s1 = xs_cells s /\ xs_hf s1 = xs_hf s /\
      let o := evm s1 limit t in
      x_exit r = eo_exit o /\ x_ret r = eo_ret o /\ x_gas_used r = eo_used o /\ x_remain_gas r = eo_remain o /\
      (is_succeed (eo_exit o) = true -> x_logs r = eo_logs o) /\
      (xs_logs s = [] -> is_succeed (eo_exit o) = false -> x_logs r = []) /\ xs_logs s' = [].
  Proof using.
    intros limit s t s' r NS E. unfold ExecModel.exec_tx in E. rewrite dispatch_other in E by done.
    unfold evm_exec in E. cbn zeta in E.
    match type of E with context [evm ?x limit t] => set (s1 := x) in * end.
    destruct (U256_MOD <=? _); [done|]. injection E as <- <-. exists s1.
    split. { intros a N. by apply get_insert_ne. } split; [apply get_insert|].
    do 5 (split; [done|]). cbn. repeat split.
    - intros ->. done.
    - intros L ->. exact L.
  Qed.

  Lemma creation_not_system t : tx_action (unsigned_of t) = Create -> ~ is_system t.
  Proof. intros A (i & _ & B). unfold to_system in B. congruence. Qed.

  (** what an EVM transaction does to the state *)
  Lemma exec_tx_evm limit s t s' r : ~ is_system t -> exec_tx evm limit s t = Ok (s', r) ->
    let x := get_account (xs_acc s) (s_sender t) in
    exists s1 s2,
      xs_acc s1 = <[s_sender t := Acc (a_nonce x) (a_balance x - price_of t * limit_of t) (a_storage x) (a_code x)]> (xs_acc s) /\
      (let o := evm s1 limit t in
       s2 = (if is_succeed (eo_exit o) then apply_ops keccak s1 (eo_values o) (eo_logs o) true else s1) /\
       let y := get_account (xs_acc s2) (s_sender t) in
       xs_acc s' = <[s_sender t := Acc (a_nonce x + 1)
           (if eo_remain o =? 0 then a_balance y else add_sat (a_balance y) (eo_remain o * price_of t))
           (a_storage y) (a_code y)]> (xs_acc s2) /\
       x_fee_cost r = price_of t * eo_used o /\ x_gas_used r = eo_used o /\ x_remain_gas r = eo_remain o /\ x_exit r = eo_exit o) /\
      xs_meta s' = xs_meta s /\ c_number (xs_ctx s') = c_number (xs_ctx s) /\ c_extra (xs_ctx s') = c_extra (xs_ctx s) /\
      c_origin (xs_ctx s') = s_sender t /\ xs_hf s' = xs_hf s.
  Proof.
    intros NS E x. unfold ExecModel.exec_tx in E. rewrite dispatch_other in E by done.
    unfold evm_exec in E. cbn zeta in E.
    match type of E with context [evm ?x limit t] => set (s1 := x) in * end.
    exists s1, (if is_succeed (eo_exit (evm s1 limit t)) then
             apply_ops keccak s1 (eo_values (evm s1 limit t)) (eo_logs (evm s1 limit t)) true else s1).
    split; [done|].
    destruct (U256_MOD <=? _); [done|]. injection E as <- <-. cbn zeta. split; [done|].
    pose proof (apply_ops_rest keccak s1 (eo_values (evm s1 limit t)) (eo_logs (evm s1 limit t)) true) as (A & B & _ & D).
    cbn [set_logs xs_meta xs_ctx save_account set_acc xs_hf]. unfold save_account, set_acc, set_logs. cbn [xs_meta xs_ctx xs_hf].
    destruct (is_succeed _); rewrite ?A, ?B, ?D; done.
  Qed.

  (* ---------------------------------------------------------------------- *)
  (** * C22 *)

  (** Whatever the EVM did, the sender's nonce is one more than before. *)
  Theorem C22_nonce : forall limit s t s' r, ~ is_system t -> exec_tx evm limit s t = Ok (s', r) ->
    nonce_of s' (s_sender t) = nonce_of s (s_sender t) + 1.
  Proof using.
    intros limit s t s' r NS E. apply exec_tx_evm in E as (s1 & s2 & _ & (_ & A & _) & _); [|done].
    unfold nonce_of. rewrite A, get_insert. done.
  Qed.

  (** and execution does not get stuck unless that nonce does not exist *)
  Theorem C22_total : forall limit s t, ~ is_system t -> nonce_of s (s_sender t) + 1 < 2^256 ->
    exists s' r, exec_tx evm limit s t = Ok (s', r).
  Proof using.
    intros limit s t NS L. unfold ExecModel.exec_tx. rewrite dispatch_other by done.
    unfold evm_exec. cbn zeta. unfold nonce_of in L.
    cbn [xs_acc] in *. rewrite (proj2 (N.leb_gt U256_MOD _)) by exact L. eauto.
  Qed.

  (* ---------------------------------------------------------------------- *)
  (** * C23 *)

  (** A transaction that did not succeed, from a sender who can afford the gas limit: the sender loses the price of
      the gas that is not returned, and no other account changes. *)
  Theorem C23_failed_partial : forall limit s t s' r, ~ is_system t -> exec_tx evm limit s t = Ok (s', r) ->
    price_of t * limit_of t <= balance_of s (s_sender t) -> balance_of s (s_sender t) < 2^256 ->
    x_remain_gas r + x_gas_used r <= limit_of t ->
    is_succeed (x_exit r) = false ->
    balance_of s' (s_sender t) = balance_of s (s_sender t) - price_of t * (limit_of t - x_remain_gas r) /\
    balance_of s' (s_sender t) + x_fee_cost r <= balance_of s (s_sender t) /\
    (x_remain_gas r + x_gas_used r = limit_of t ->
       balance_of s' (s_sender t) + x_fee_cost r = balance_of s (s_sender t)) /\
    (forall a, a <> s_sender t -> get_account (xs_acc s') a = get_account (xs_acc s) a).
  Proof using.
    intros limit s t s' r NS E P B G F.
    apply exec_tx_evm in E as (s1 & s2 & A1 & (A2 & A3 & Fe & Us & Re & Ex) & _); [|done].
    rewrite Ex in F. rewrite F in A2. subst s2. rewrite <- Re in *.
    unfold balance_of, balance in *. set (x := get_account (xs_acc s) (s_sender t)) in *.
    rewrite A3, get_insert. cbn [a_balance]. rewrite A1, get_insert. cbn [a_balance].
    set (p := price_of t) in *. set (gl := limit_of t) in *. set (rm := x_remain_gas r) in *.
    assert (Q : (if rm =? 0 then a_balance x - p * gl else add_sat (a_balance x - p * gl) (rm * p))
              = a_balance x - p * (gl - rm)).
    { destruct (N.eqb_spec rm 0) as [RZ|NZ]; [by rewrite RZ, N.sub_0_r|].
      unfold add_sat. assert (p * (gl - rm) + rm * p = p * gl) by nia.
      assert (p * (gl - rm) <= p * gl) by nia.
      destruct (N.ltb_spec (a_balance x - p * gl + rm * p) U256_MOD) as [L|L]; [lia|].
      unfold U256_MOD in L. lia. }
    rewrite Q. rewrite Fe, <- Us. split; [done|]. split; [|split].
    - assert (p * x_gas_used r <= p * (gl - rm)) by nia. assert (p * (gl - rm) <= p * gl) by nia. lia.
    - intros U. assert (gl - rm = x_gas_used r) as -> by lia. assert (p * x_gas_used r <= p * gl) by nia. lia.
    - intros a N. by rewrite !get_insert_ne.
  Qed.

  (** A successful one: besides what the EVM moved (the difference between the sender's balance after the interpreter ran and
      before it), the sender pays for the gas that is not returned. *)
  Theorem C23_success_partial : forall limit s t s' r, ~ is_system t -> exec_tx evm limit s t = Ok (s', r) ->
    price_of t * limit_of t <= balance_of s (s_sender t) ->
    x_remain_gas r <= limit_of t ->
    is_succeed (x_exit r) = true ->
    exists s1 s2,
      balance_of s1 (s_sender t) = balance_of s (s_sender t) - price_of t * limit_of t /\
      (forall a, a <> s_sender t -> get_account (xs_acc s1) a = get_account (xs_acc s) a) /\
      s2 = apply_ops keccak s1 (eo_values (evm s1 limit t)) (eo_logs (evm s1 limit t)) true /\
      (forall a, a <> s_sender t -> get_account (xs_acc s') a = get_account (xs_acc s2) a) /\
      (balance_of s2 (s_sender t) + x_remain_gas r * price_of t < 2^256 ->
       balance_of s' (s_sender t) + price_of t * (limit_of t - x_remain_gas r) + balance_of s1 (s_sender t)
         = balance_of s (s_sender t) + balance_of s2 (s_sender t)).
  Proof using.
    intros limit s t s' r NS E P G F.
    apply exec_tx_evm in E as (s1 & s2 & A1 & (A2 & A3 & Fe & Us & Re & Ex) & _); [|done].
    rewrite Ex in F. rewrite F in A2. exists s1, s2. rewrite <- Re in *.
    unfold balance_of, balance in *. set (x := get_account (xs_acc s) (s_sender t)) in *.
    rewrite A3, A1, !get_insert. cbn [a_balance].
    split; [done|]. split; [intros a N; by rewrite get_insert_ne|]. split; [done|].
    split; [intros a N; by rewrite get_insert_ne|].
    intros OV. set (y := get_account (xs_acc s2) (s_sender t)) in *.
    assert (Q : (if x_remain_gas r =? 0 then a_balance y else add_sat (a_balance y) (x_remain_gas r * price_of t))
              = a_balance y + x_remain_gas r * price_of t).
    { destruct (N.eqb_spec (x_remain_gas r) 0) as [->|]; [lia|]. unfold add_sat.
      rewrite (proj2 (N.ltb_lt _ _)); [done|]. exact OV. }
    rewrite Q.
    assert (price_of t * (limit_of t - x_remain_gas r) + x_remain_gas r * price_of t = price_of t * limit_of t) by nia.
    lia.
  Qed.

  (** Assumptions on the interpreter: it never reports more gas than the limit, and the changes it
      asks for do not create balance. *)
  Definition evm_gas_ok : Prop := forall s limit t,
    eo_remain (evm s limit t) + eo_used (evm s limit t) <= limit_of t.
  Definition evm_conserves : Prop := forall s limit t, is_succeed (eo_exit (evm s limit t)) = true ->
    total (xs_acc (apply_ops keccak s (eo_values (evm s limit t)) (eo_logs (evm s limit t)) true)) <= total (xs_acc s).

  (** Nothing is created and the reported fee has left the accounts, when the sender can afford the gas limit. *)
  Theorem C23_conserves_partial : forall limit s t s' r, evm_gas_ok -> evm_conserves ->
    ~ is_system t -> exec_tx evm limit s t = Ok (s', r) ->
    price_of t * limit_of t <= balance_of s (s_sender t) ->
    total (xs_acc s') + x_fee_cost r <= total (xs_acc s).
  Proof using.
    intros limit s t s' r EG EC NS E P.
    apply exec_tx_evm in E as (s1 & s2 & A1 & (A2 & A3 & Fe & Us & Re & Ex) & _); [|done].
    pose proof (EG s1 limit t) as G. pose proof (EC s1 limit t) as C.
    set (o := evm s1 limit t) in *.
    assert (T2 : total (xs_acc s2) <= total (xs_acc s1)).
    { subst s2. destruct (is_succeed (eo_exit o)); [by apply C|lia]. }
    pose proof (total_insert (xs_acc s) (s_sender t)
      (Acc (a_nonce (get_account (xs_acc s) (s_sender t))) (a_balance (get_account (xs_acc s) (s_sender t)) - price_of t * limit_of t)
        (a_storage (get_account (xs_acc s) (s_sender t))) (a_code (get_account (xs_acc s) (s_sender t))))) as T1.
    rewrite <- A1 in T1. cbn [a_balance] in T1.
    match type of A3 with _ = <[_ := ?x]> _ => pose proof (total_insert (xs_acc s2) (s_sender t) x) as T3 end.
    rewrite <- A3 in T3. cbn [a_balance] in T3. unfold balance_of, balance in *.
    set (y := get_account (xs_acc s2) (s_sender t)) in *.
    assert (Q : (if eo_remain o =? 0 then a_balance y else add_sat (a_balance y) (eo_remain o * price_of t))
              <= a_balance y + eo_remain o * price_of t).
    { destruct (eo_remain o =? 0); [lia|]. unfold add_sat. destruct (N.ltb_spec (a_balance y + eo_remain o * price_of t) U256_MOD); lia. }
    rewrite Fe.
    assert (price_of t * eo_used o + eo_remain o * price_of t <= price_of t * limit_of t) by nia.
    lia.
  Qed.

  (* ---------------------------------------------------------------------- *)
  (** * C26 *)

  (** the call data of a native token transaction: a direction byte and a 20-byte address *)
  Definition token_call (t : stx) (dir : N) (a : bytes) : Prop :=
    to_system 0 t /\ length a = 20%nat /\ exists rest, tx_data (unsigned_of t) = dir :: a ++ rest.

  Lemma exec_tx_native limit s t : to_system 0 t -> exists s0,
    xs_acc s0 = xs_acc s /\ xs_meta s0 = xs_meta s /\ xs_cells s0 = xs_cells s /\ xs_code s0 = xs_code s /\
    c_number (xs_ctx s0) = c_number (xs_ctx s) /\ c_extra (xs_ctx s0) = c_extra (xs_ctx s) /\
    c_origin (xs_ctx s0) = s_sender t /\ xs_hf s0 = xs_hf s /\ xs_logs s0 = xs_logs s /\
    exec_tx evm limit s t = match native_exec keccak s0 t with
      | Ok (s', x) => Ok (set_logs s' [], TxResp_ (x_exit x) (x_ret x) (x_gas_used x) (x_remain_gas x) (x_fee_cost x) (xs_logs s')
              (x_code_address x) (x_removed x))
      | _ => Panic end.
  Proof.
    intros A. apply to_iff in A.
    exists (XState (xs_acc s) (xs_code s) (xs_logs s)
      (XCtx (c_number (xs_ctx s)) (s_sender t) (gas_price (unsigned_of t)) (c_extra (xs_ctx s))) (xs_meta s) (xs_cells s) (xs_hf s)).
    unfold ExecModel.exec_tx, ExecModel.dispatch. rewrite A.
    repeat split; reflexivity.
  Qed.

  (** Issue: the target's balance grows by exactly the value, and nothing else but its nonce changes. *)
  Theorem C26_issue : forall limit s t a, token_call t 0 a ->
    balance_of s a + tx_value (unsigned_of t) < 2^256 -> nonce_of s a + 1 < 2^256 ->
    exists s' r, exec_tx evm limit s t = Ok (s', r) /\ is_succeed (x_exit r) = true /\ x_fee_cost r = 0 /\
      balance_of s' a = balance_of s a + tx_value (unsigned_of t) /\
      (forall b, b <> a -> get_account (xs_acc s') b = get_account (xs_acc s) b) /\
      xs_meta s' = xs_meta s /\ xs_cells s' = xs_cells s.
  Proof using.
    intros limit s t a (T & LA & rest & D) B Nn.
    destruct (exec_tx_native limit s t T) as (s0 & Ea & Em & Ec & _ & _ & _ & _ & _ & _ & ->).
    unfold native_exec. cbn zeta. rewrite D.
    assert (FN : firstn 20 (a ++ rest) = a) by (rewrite <- LA; apply take_app).
    rewrite (proj2 (N.ltb_ge (len (0 :: a ++ rest)) 21)) by (unfold len; cbn [length]; rewrite app_length, LA; lia).
    cbn [orb]. change (1 <? 0) with false. cbn iota. change (0 =? 0) with true. cbn iota.
    rewrite FN, Ea. unfold balance_of, balance, nonce_of in *.
    rewrite (proj2 (N.leb_gt U256_MOD _)) by exact B.
    rewrite (proj2 (N.leb_gt U256_MOD _)) by exact Nn.
    eexists _, _. split; [reflexivity|].
    split; [done|]. split; [done|].
    unfold ExecModel.apply_ops. cbn [fold_left]. rewrite apply_one_basic.
    unfold save_account, set_acc, set_logs. cbn [xs_acc xs_meta xs_cells].
    rewrite Ea, get_insert. split; [done|]. split; [|done].
    intros b N. by rewrite get_insert_ne.
  Qed.

  (** Burn: exactly the value, or a revert that changes no account when the balance is too small. *)
  Theorem C26_burn : forall limit s t a, token_call t 1 a -> nonce_of s a + 1 < 2^256 -> limit_of t <> 0 ->
    exists s' r, exec_tx evm limit s t = Ok (s', r) /\
      (if balance_of s a <? tx_value (unsigned_of t)
       then is_succeed (x_exit r) = false /\ xs_acc s' = xs_acc s
       else is_succeed (x_exit r) = true /\ balance_of s' a + tx_value (unsigned_of t) = balance_of s a /\
            (forall b, b <> a -> get_account (xs_acc s') b = get_account (xs_acc s) b)).
  Proof using.
    intros limit s t a (T & LA & rest & D) Nn GL.
    destruct (exec_tx_native limit s t T) as (s0 & Ea & Em & Ec & _ & _ & _ & _ & _ & _ & ->).
    unfold native_exec. cbn zeta. rewrite D.
    assert (FN : firstn 20 (a ++ rest) = a) by (rewrite <- LA; apply take_app).
    rewrite (proj2 (N.ltb_ge (len (1 :: a ++ rest)) 21)) by (unfold len; cbn [length]; rewrite app_length, LA; lia).
    cbn [orb]. change (1 <? 1) with false. cbn iota. change (1 =? 0) with false. cbn iota.
    rewrite FN, Ea. unfold balance_of, balance, nonce_of in *.
    destruct (N.ltb_spec (a_balance (get_account (xs_acc s) a)) (tx_value (unsigned_of t))) as [L|L].
    - unfold reverting, revert_resp. unfold limit_of in GL.
      rewrite (proj2 (N.eqb_neq _ 0) GL). eexists _, _. split; [reflexivity|]. by rewrite <- Ea.
    - rewrite (proj2 (N.leb_gt U256_MOD _)) by exact Nn.
      eexists _, _. split; [reflexivity|]. split; [done|].
      unfold ExecModel.apply_ops. cbn [fold_left]. rewrite apply_one_basic.
      unfold save_account, set_acc, set_logs. cbn [xs_acc].
      rewrite Ea, get_insert. cbn [a_balance]. split; [lia|].
      intros b N. by rewrite get_insert_ne.
  Qed.

  (** Any other call data is reverted without effect. *)
  Theorem C26_malformed : forall limit s t, to_system 0 t -> limit_of t <> 0 ->
    ~ (exists d a, token_call t d a /\ d <= 1) ->
    exists s' r, exec_tx evm limit s t = Ok (s', r) /\ is_succeed (x_exit r) = false /\ xs_acc s' = xs_acc s.
  Proof using.
    intros limit s t T GL NT.
    destruct (exec_tx_native limit s t T) as (s0 & Ea & Em & Ec & _ & _ & _ & _ & _ & _ & ->).
    unfold native_exec. cbn zeta. unfold reverting, revert_resp. unfold limit_of in GL.
    rewrite (proj2 (N.eqb_neq _ 0) GL).
    destruct (tx_data (unsigned_of t)) as [|d rest] eqn:D.
    - eexists _, _. split; [reflexivity|]. by rewrite <- Ea.
    - destruct ((len (d :: rest) <? 21) || (1 <? d)) eqn:C.
      + eexists _, _. split; [reflexivity|]. by rewrite <- Ea.
      + exfalso. apply NT. apply orb_false_iff in C as [C1 C2]. apply N.ltb_ge in C1, C2.
        unfold len in C1. cbn [length] in C1.
        exists d, (firstn 20 rest). split; [|done]. split; [done|]. split.
        * rewrite firstn_length. lia.
        * exists (skipn 20 rest). by rewrite firstn_skipn.
  Qed.

  (** Nobody is asked for authorisation: the sender does not occur in the outcome. *)
  Theorem C26_any_caller_refuted : forall limit s t a, token_call t 0 a ->
    balance_of s a + tx_value (unsigned_of t) < 2^256 -> nonce_of s a + 1 < 2^256 ->
    forall anyone, let t' := Stx (s_tx t) anyone (s_public t) in
    exists s' r, exec_tx evm limit s t' = Ok (s', r) /\
      balance_of s' a = balance_of s a + tx_value (unsigned_of t).
  Proof using.
    intros limit s t a TC B Nn anyone t'.
    destruct (C26_issue limit s t' a) as (s' & r & E & _ & _ & Q & _); [exact TC|exact B|exact Nn|].
    exists s', r. split; [exact E|exact Q].
  Qed.

  (** An issue that would overflow is not refused: the node panics. *)
  Theorem C26_overflow_refuted : forall limit s t a, token_call t 0 a ->
    2^256 <= balance_of s a + tx_value (unsigned_of t) -> exec_tx evm limit s t = Panic.
  Proof using.
    intros limit s t a (T & LA & rest & D) B.
    destruct (exec_tx_native limit s t T) as (s0 & Ea & Em & Ec & _ & _ & _ & _ & _ & _ & ->).
    unfold native_exec. cbn zeta. rewrite D.
    assert (FN : firstn 20 (a ++ rest) = a) by (rewrite <- LA; apply take_app).
    rewrite (proj2 (N.ltb_ge (len (0 :: a ++ rest)) 21)) by (unfold len; cbn [length]; rewrite app_length, LA; lia).
    cbn [orb]. change (1 <? 0) with false. cbn iota. change (0 =? 0) with true. cbn iota.
    rewrite FN, Ea. unfold balance_of, balance in B.
    rewrite (proj2 (N.leb_le U256_MOD _)) by exact B. done.
  Qed.

  (* ---------------------------------------------------------------------- *)
  (** * System contracts in general *)

  Definition rev_count (t : stx) (r : tx_resp) : N :=
    match x_exit r with XRevert _ => x_fee_cost r | _ => 0 end.

  (** What any system transaction can do to the accounts: revert without effect, move one token
      balance, or raise the sender's nonce. *)
  Lemma exec_tx_system limit s t s' r : is_system t -> exec_tx evm limit s t = Ok (s', r) ->
    c_number (xs_ctx s') = c_number (xs_ctx s) /\ c_extra (xs_ctx s') = c_extra (xs_ctx s) /\
    c_origin (xs_ctx s') = s_sender t /\ xs_hf s' = xs_hf s /\
    ((x_exit r = XRevert 0 /\ x_fee_cost r = 1 /\ x_gas_used r = limit_of t - 1 /\ xs_acc s' = xs_acc s /\ xs_meta s' = xs_meta s) \/
     (x_exit r = XSucceed 0 /\ x_fee_cost r = 0 /\ x_gas_used r = 0 /\
      ((to_system 0 t /\ exists a d b, token_call t d a /\ d <= 1 /\
          b + (if d =? 0 then 0 else tx_value (unsigned_of t)) = balance_of s a + (if d =? 0 then tx_value (unsigned_of t) else 0) /\
          (forall c, get_account (xs_acc s') c =
             if decide (a = c) then
               let x := get_account (xs_acc s) a in Acc (a_nonce x + 1) b (a_storage x) (a_code x)
             else get_account (xs_acc s) c)) \/
       (~ to_system 0 t /\ forall c, get_account (xs_acc s') c =
          if decide (s_sender t = c) then
            let x := get_account (xs_acc s) (s_sender t) in Acc (a_nonce x + 1) (a_balance x) (a_storage x) (a_code x)
          else get_account (xs_acc s) c)))).
  Proof.
    intros (i & L & T) E. pose proof T as T0. apply to_iff in T. unfold ExecModel.exec_tx, ExecModel.dispatch in E. rewrite T in E.
    match type of E with context [native_exec keccak ?x t] => set (s0 := x) in * end.
    assert (US : forall s1 l s2, xs_acc s1 = xs_acc s -> update_states keccak s1 (s_sender t) l = Ok s2 ->
       (forall c, get_account (xs_acc s2) c =
          if decide (s_sender t = c) then
            let x := get_account (xs_acc s) (s_sender t) in Acc (a_nonce x + 1) (a_balance x) (a_storage x) (a_code x)
          else get_account (xs_acc s) c) /\ xs_ctx s2 = xs_ctx s1 /\ xs_hf s2 = xs_hf s1).
    { intros s1 l s2 EA U. pose proof (update_states_spec _ _ _ _ _ U) as [H _]. rewrite <- EA. split; [done|].
      unfold update_states in U. destruct (U256_MOD <=? _); [done|]. injection U as <-.
      match goal with |- context [apply_ops keccak ?s ?o ?l ?d] => pose proof (apply_ops_rest keccak s o l d) as (A & _ & _ & D) end.
      by rewrite A, D. }
    assert (i = 0 \/ i = 1 \/ i = 2 \/ i = 3) as [->|[->|[->| ->]]] by lia.
    - change (beqb (repeat 255 19 ++ [0]) NATIVE) with true in E. cbn iota in E.
      destruct (native_exec keccak s0 t) as [[s1 x]| |] eqn:NE; [|done|done]. injection E as <- <-.
      unfold native_exec in NE. cbn zeta in NE.
      destruct (tx_data (unsigned_of t)) as [|d rest] eqn:D.
      { unfold reverting, revert_resp in NE. destruct (gas_limit _ =? 0); [done|]. injection NE as <- <-.
        do 4 (split; [done|]). left. done. }
      destruct ((len (d :: rest) <? 21) || (1 <? d)) eqn:C.
      { unfold reverting, revert_resp in NE. destruct (gas_limit _ =? 0); [done|]. injection NE as <- <-.
        do 4 (split; [done|]). left. done. }
      apply orb_false_iff in C as [C1 C2]. apply N.ltb_ge in C1, C2. unfold len in C1. cbn [length] in C1.
      assert (TC : token_call t d (firstn 20 rest)).
      { split; [done|]. split; [rewrite firstn_length; lia|]. exists (skipn 20 rest). by rewrite D, firstn_skipn. }
      set (a := firstn 20 rest) in *.
      assert (FIN : forall b, (if U256_MOD <=? a_nonce (get_account (xs_acc s0) a) + 1 then Panic
            else Ok (apply_ops keccak s0 [AModify a (a_nonce (get_account (xs_acc s0) a) + 1) b None [] false] [] false,
                     succeed_resp (gas_limit (unsigned_of t)))) = Ok (s1, x) ->
            x = succeed_resp (gas_limit (unsigned_of t)) /\ xs_ctx s1 = xs_ctx s0 /\ xs_hf s1 = xs_hf s0 /\
            forall c, get_account (xs_acc s1) c =
             if decide (a = c) then
               let x := get_account (xs_acc s) a in Acc (a_nonce x + 1) b (a_storage x) (a_code x)
             else get_account (xs_acc s) c).
      { intros b Q. destruct (U256_MOD <=? a_nonce _ + 1); [done|]. injection Q as <- <-. split; [done|].
        unfold ExecModel.apply_ops. cbn [fold_left]. rewrite apply_one_basic. split; [done|]. split; [done|].
        unfold save_account, set_acc, set_logs. cbn [xs_acc]. intros c.
        destruct (decide (a = c)) as [<-|N]; [by rewrite get_insert|by rewrite get_insert_ne]. }
      destruct (N.eqb_spec d 0) as [->|NZ].
      + destruct (U256_MOD <=? a_balance _ + _) eqn:OV; [done|].
        apply FIN in NE as (-> & A1 & A2 & A3). cbn [set_logs xs_ctx xs_hf xs_acc]. unfold set_logs. cbn [xs_ctx xs_hf xs_acc].
        rewrite A1, A2. do 4 (split; [done|]). right. do 3 (split; [done|]). left. split; [done|].
        eexists a, 0, _. split; [done|]. split; [lia|]. split; [|exact A3].
        change (0 =? 0) with true. cbn iota. rewrite N.add_0_r. reflexivity.
      + destruct (N.ltb_spec (a_balance (get_account (xs_acc s0) a)) (tx_value (unsigned_of t))) as [L1|L1].
        { unfold reverting, revert_resp in NE. destruct (gas_limit _ =? 0); [done|]. injection NE as <- <-.
          do 4 (split; [done|]). left. done. }
        apply FIN in NE as (-> & A1 & A2 & A3). unfold set_logs. cbn [xs_ctx xs_hf xs_acc].
        rewrite A1, A2. do 4 (split; [done|]). right. do 3 (split; [done|]). left. split; [done|].
        eexists a, d, _. split; [done|]. split; [done|]. split; [|exact A3].
        rewrite (proj2 (N.eqb_neq d 0) NZ). unfold balance_of, balance. change (xs_acc s0) with (xs_acc s) in *. lia.
    - assert (NT : ~ to_system 0 t) by (unfold to_system in *; rewrite T0; intros [=]).
      change (beqb (repeat 255 19 ++ [1]) NATIVE) with false in E. cbn iota in E.
      change (beqb (repeat 255 19 ++ [1]) METADATA) with true in E. cbn iota in E.
      destruct (metadata_exec keccak meta_abi s0 t) as [[s1 x]| |] eqn:NE; [|done|done]. injection E as <- <-.
      unfold metadata_exec in NE. cbn zeta in NE.
      match type of NE with context [match ?q with Ok _ => _ | Err => _ | Panic => _ end] => destruct q as [[|]| |] eqn:AL end; try done.
      2,3: unfold reverting, revert_resp in NE; destruct (gas_limit _ =? 0); [done|]; injection NE as <- <-;
           do 4 (split; [done|]); left; done.
      match type of NE with context [match ?q with Ok _ => _ | Err => _ | Panic => _ end] => destruct q as [m| |] eqn:ML end; try done.
      2: unfold reverting, revert_resp in NE; destruct (gas_limit _ =? 0); [done|]; injection NE as <- <-;
           do 4 (split; [done|]); left; done.
      destruct (update_states keccak _ _ _) as [s2| |] eqn:U; try done. injection NE as <- <-.
      apply US in U as (U1 & U2 & U3); [|done]. unfold set_logs. cbn [xs_ctx xs_hf xs_acc]. rewrite U2, U3.
      do 4 (split; [done|]). right. do 3 (split; [done|]). right. done.
    - assert (NT : ~ to_system 0 t) by (unfold to_system in *; rewrite T0; intros [=]).
      change (beqb (repeat 255 19 ++ [2]) NATIVE) with false in E. cbn iota in E.
      change (beqb (repeat 255 19 ++ [2]) METADATA) with false in E. cbn iota in E.
      change (beqb (repeat 255 19 ++ [2]) CKB) with true in E. cbn iota in E.
      destruct (cells_exec keccak hdr_hash henc ckb_abi s0 t) as [[s1 x]| |] eqn:NE; [|done|done]. injection E as <- <-.
      unfold cells_exec in NE. destruct (cell_exec _ _ _ _) as [c [|]].
      2: unfold reverting, revert_resp in NE; destruct (gas_limit _ =? 0); [done|]; injection NE as <- <-;
           do 4 (split; [done|]); left; done.
      destruct (update_states keccak _ _ _) as [s2| |] eqn:U; try done. injection NE as <- <-.
      apply US in U as (U1 & U2 & U3); [|done]. unfold set_logs. cbn [xs_ctx xs_hf xs_acc]. rewrite U2, U3.
      do 4 (split; [done|]). right. do 3 (split; [done|]). right. done.
    - assert (NT : ~ to_system 0 t) by (unfold to_system in *; rewrite T0; intros [=]).
      change (beqb (repeat 255 19 ++ [3]) NATIVE) with false in E. cbn iota in E.
      change (beqb (repeat 255 19 ++ [3]) METADATA) with false in E. cbn iota in E.
      change (beqb (repeat 255 19 ++ [3]) CKB) with false in E. cbn iota in E.
      change (beqb (repeat 255 19 ++ [3]) IMAGE) with true in E. cbn iota in E.
      destruct (cells_exec keccak hdr_hash henc image_abi s0 t) as [[s1 x]| |] eqn:NE; [|done|done]. injection E as <- <-.
      unfold cells_exec in NE. destruct (cell_exec _ _ _ _) as [c [|]].
      2: unfold reverting, revert_resp in NE; destruct (gas_limit _ =? 0); [done|]; injection NE as <- <-;
           do 4 (split; [done|]); left; done.
      destruct (update_states keccak _ _ _) as [s2| |] eqn:U; try done. injection NE as <- <-.
      apply US in U as (U1 & U2 & U3); [|done]. unfold set_logs. cbn [xs_ctx xs_hf xs_acc]. rewrite U2, U3.
      do 4 (split; [done|]). right. do 3 (split; [done|]). right. done.
  Qed.

  (* ---------------------------------------------------------------------- *)
  (** * C57 *)

  (** A successful call of the metadata, CKB or image contract raises the caller's nonce. *)
  Theorem C57_other_contracts_partial : forall limit s t s' r, is_system t -> ~ to_system 0 t ->
    exec_tx evm limit s t = Ok (s', r) -> is_succeed (x_exit r) = true ->
    nonce_of s' (s_sender t) = nonce_of s (s_sender t) + 1.
  Proof using.
    intros limit s t s' r S NT E SU.
    apply exec_tx_system in E as (_ & _ & _ & _ & [(X & _)|(X & _ & _ & [(T & _)|(_ & H)])]); try done.
    { rewrite X in SU. done. }
    unfold nonce_of. rewrite H. by rewrite decide_True.
  Qed.

  (** A reverted one does not, and neither does a native token transaction for another account: the
      same signed transaction can be executed again. *)
  Theorem C57_reverted_refuted : forall limit s t s' r, is_system t -> exec_tx evm limit s t = Ok (s', r) ->
    is_succeed (x_exit r) = false -> nonce_of s' (s_sender t) = nonce_of s (s_sender t).
  Proof using.
    intros limit s t s' r S E SU.
    apply exec_tx_system in E as (_ & _ & _ & _ & [(X & _ & _ & A & _)|(X & _)]); try done.
    - unfold nonce_of. by rewrite A.
    - rewrite X in SU. done.
  Qed.

  Theorem C57_token_refuted : forall limit s t a d s' r, token_call t d a -> a <> s_sender t ->
    exec_tx evm limit s t = Ok (s', r) -> nonce_of s' (s_sender t) = nonce_of s (s_sender t).
  Proof using.
    intros limit s t a d s' r TC N E.
    assert (S : is_system t) by (exists 0; split; [lia|apply TC]).
    apply exec_tx_system in E as (_ & _ & _ & _ & [(X & _ & _ & A & _)|(X & _ & _ & [(T & a' & d' & b & TC' & _ & _ & H)|(NT & _)])]); try done.
    - unfold nonce_of. by rewrite A.
    - assert (a' = a).
      { destruct TC as (_ & LA & r1 & D1), TC' as (_ & LA' & r2 & D2). rewrite D1 in D2. injection D2 as _ D2.
        apply app_inj_1 in D2; [|lia]. symmetry. apply D2. }
      subst a'. unfold nonce_of. rewrite H. by rewrite decide_False.
    - exfalso. apply NT, TC.
  Qed.

  (* ---------------------------------------------------------------------- *)
  (** * Runs of transactions *)
  Inductive run (limit : N) : xstate -> list stx -> xstate -> list tx_resp -> Prop :=
  | run_nil s : run limit s [] s []
  | run_cons s t s1 r txs s2 rs : exec_tx evm limit s t = Ok (s1, r) -> run limit s1 txs s2 rs ->
      run limit s (t :: txs) s2 (r :: rs).

  Lemma add_sat_le a b : add_sat a b <= a + b.
  Proof. unfold add_sat. destruct (N.ltb_spec (a + b) U256_MOD); lia. Qed.
  Lemma add_sat_eq a b : a + b < U256_MOD -> add_sat a b = a + b.
  Proof. intros L. unfold add_sat. by rewrite (proj2 (N.ltb_lt _ _) L). Qed.

  Lemma loop_run limit s txs g f s' rs g' f' : exec_loop limit s txs g f = Ok (s', rs, g', f') ->
    run limit s txs s' rs /\ g' = g + sumN (map x_gas_used rs) /\ (g <= U64_MAX -> g' <= U64_MAX) /\
    f' <= f + sumN (map x_fee_cost rs) /\
    (f + sumN (map x_fee_cost rs) < U256_MOD -> f' = f + sumN (map x_fee_cost rs)).
  Proof.
    unfold sumN. revert s g f rs. induction txs as [|t txs IH]; intros s g f rs E; cbn [ExecModel.exec_loop] in E.
    - injection E as <- <- <- <-. cbn [map fold_right]. split; [constructor|]. repeat split; intros; lia.
    - destruct (exec_tx evm limit s t) as [[s1 x]| |] eqn:X; [|done|done].
      destruct (N.ltb_spec U64_MAX (g + x_gas_used x)) as [|L]; [done|].
      destruct (exec_loop limit s1 txs _ _) as [[[[sf xs] g1] f1]| |] eqn:R; [|done|done].
      injection E as <- <- <- <-. apply IH in R as (A & B & B2 & C & D). cbn [map fold_right].
      pose proof (add_sat_le f (x_fee_cost x)).
      split; [by econstructor|]. split; [lia|]. split; [intros _; apply B2; lia|]. split; [lia|].
      intros H2. rewrite add_sat_eq in D by lia. rewrite D; lia.
  Qed.

  Lemma run_ctx limit s txs s' rs : run limit s txs s' rs ->
    c_number (xs_ctx s') = c_number (xs_ctx s) /\ c_extra (xs_ctx s') = c_extra (xs_ctx s) /\ xs_hf s' = xs_hf s /\
    c_origin (xs_ctx s') = match List.rev txs with [] => c_origin (xs_ctx s) | t :: _ => s_sender t end.
  Proof.
    induction 1 as [|s t s1 r txs s2 rs E R IH]; [done|].
    assert (c_number (xs_ctx s1) = c_number (xs_ctx s) /\ c_extra (xs_ctx s1) = c_extra (xs_ctx s) /\ xs_hf s1 = xs_hf s /\
            c_origin (xs_ctx s1) = s_sender t) as (A & B & C & D).
    { destruct (system_or_not t) as [SY|NS].
      - apply exec_tx_system in E; [|done]. tauto.
      - apply exec_tx_evm in E as (? & ? & _ & _ & _ & ? & ? & ? & ?); [|done]. done. }
    destruct IH as (A' & B' & C' & D'). rewrite A', B', C', D', A, B, C, D. repeat split.
    cbn [List.rev]. destruct (List.rev txs); done.
  Qed.

  Lemma run_app limit s a s1 ra b s2 rb : run limit s a s1 ra -> run limit s1 b s2 rb -> run limit s (a ++ b) s2 (ra ++ rb).
  Proof. induction 1; [done|]. intros R. cbn. econstructor; eauto. Qed.

  Lemma run_app_inv limit s a b s2 rs : run limit s (a ++ b) s2 rs ->
    exists s1 ra rb, run limit s a s1 ra /\ run limit s1 b s2 rb /\ rs = ra ++ rb.
  Proof.
    revert s rs. induction a as [|t a IH]; cbn; intros s rs R.
    - exists s, [], rs. split; [constructor|done].
    - inversion R; subst. apply IH in H5 as (sx & ra & rb & R1 & R2 & ->).
      exists sx, (r :: ra), rb. split; [by econstructor|]. done.
  Qed.

  (** the parts of a block's execution *)
  Lemma exec_block_inv s txs vals s' gas rs : exec_block s txs vals = Ok (s', gas, rs) ->
    exists limit s1 fee l m mm hf,
      contract_limit s = Ok limit /\ run limit s txs s1 rs /\ gas = sumN (map x_gas_used rs) /\ gas <= U64_MAX /\
      fee <= sumN (map x_fee_cost rs) /\ (sumN (map x_fee_cost rs) < U256_MOD -> fee = sumN (map x_fee_cost rs)) /\
      (if c_number (xs_ctx s) =? 0 then Ok [] else allocate (c_number (xs_ctx s)) fee vals) = Ok l /\
      credit (xs_acc s1) l = Ok m /\
      meta_after_block (xs_meta s1) (xs_hf s) (c_number (xs_ctx s)) (c_origin (xs_ctx s1)) (c_extra (xs_ctx s)) = Ok (mm, hf) /\
      (forall a, get_account (xs_acc s') a = get_account m a) /\ xs_meta s' = mm /\ xs_hf s' = hf.
  Proof.
    unfold ExecModel.exec_block. cbn zeta. intros E.
    destruct (contract_limit s) as [limit| |] eqn:CL; try done.
    destruct (exec_loop limit s txs 0 0) as [[[[s1 rs'] g] f]| |] eqn:LP; try done.
    match type of E with match ?q with Ok _ => _ | Err => _ | Panic => _ end = _ => destruct q as [l| |] eqn:AL end; try done.
    destruct (credit (xs_acc s1) l) as [m| |] eqn:CR; try done.
    match type of E with context [meta_after_block ?a ?b ?c ?d ?e] => destruct (meta_after_block a b c d e) as [[mm hf]| |] eqn:MA end; try done.
    injection E as E1 <- <-. apply loop_run in LP as (R & G & G2 & F1 & F2).
    pose proof (run_ctx _ _ _ _ _ R) as (N1 & N2 & N3 & N4).
    exists limit, s1, f, l, m, mm, hf. cbn [set_acc xs_meta xs_hf xs_ctx] in MA. rewrite N2, N3 in MA.
    split; [done|]. split; [done|]. split; [lia|]. split; [apply G2; unfold U64_MAX; lia|]. split; [lia|].
    split; [intros H; rewrite F2 by lia; lia|]. split; [done|]. split; [done|]. split; [done|].
    destruct (c_number (xs_ctx s) =? 0); subst s'.
    - done.
    - split; [|split].
      + intros a. unfold ExecModel.apply_ops, set_logs. cbn [fold_left xs_acc].
        match goal with |- context [touch ?s3 METADATA] => exact (get_touches keccak s3 [METADATA] s3 (fun _ => eq_refl) a) end.
      + match goal with |- context [apply_ops keccak ?s ?o ?l ?d] => pose proof (apply_ops_rest keccak s o l d) as (_ & A & _ & _) end.
        by rewrite A.
      + match goal with |- context [apply_ops keccak ?s ?o ?l ?d] => pose proof (apply_ops_rest keccak s o l d) as (_ & _ & _ & A) end.
        by rewrite A.
  Qed.

  (* ---------------------------------------------------------------------- *)
  (** * C21 *)

  (** One response per transaction, the i-th being what executing the i-th transaction on the state
      left by the previous ones returns; the total is the sum. *)
  Theorem C21_accounting : forall s txs vals s' gas rs, exec_block s txs vals = Ok (s', gas, rs) ->
    gas = sumN (map x_gas_used rs) /\ length rs = length txs /\
    exists limit, forall pre t post, txs = pre ++ t :: post ->
      exists s1 s2 r rpre, run limit s pre s1 rpre /\ exec_tx evm limit s1 t = Ok (s2, r) /\
        rpre = firstn (length pre) rs /\ rs !! length pre = Some r.
  Proof using.
    intros s txs vals s' gas rs E.
    apply exec_block_inv in E as (limit & s1 & fee & l & m & mm & hf & _ & R & G & _).
    assert (LEN : forall s txs s1 rs, run limit s txs s1 rs -> length rs = length txs).
    { clear. induction 1; cbn; congruence. }
    split; [done|]. split; [by eapply LEN|].
    exists limit. intros pre t post ->. apply run_app_inv in R as (sa & ra & rb & R1 & R2 & ->).
    inversion R2; subst. pose proof (LEN _ _ _ _ R1) as L1.
    exists sa, s2, r, ra. split; [done|]. split; [done|]. split.
    - rewrite <- L1, firstn_app, Nat.sub_diag, firstn_all. cbn. by rewrite app_nil_r.
    - rewrite <- L1. apply list_lookup_middle. done.
  Qed.

  (* ---------------------------------------------------------------------- *)
  (** * C25 *)

  Definition weight_sum (vals : list validator) : N := sumN (map v_weight vals).
  (** what an address gets: a validator listed twice is paid for both entries *)
  Definition shares (fee : N) (vals : list validator) (a : bytes) : N :=
    sumN (map (fun v => if beqb (v_address v) a then fee / weight_sum vals * v_weight v else 0) vals).

  Lemma allocate_spec number fee vals l : number <> 0 -> allocate number fee vals = Ok l ->
    (forall a, paid_to l a = shares fee vals a) /\
    sumN (map snd l) = fee / weight_sum vals * weight_sum vals.
  Proof.
    intros NZ. unfold allocate. rewrite (proj2 (N.eqb_neq number 0) NZ), orb_false_r.
    rewrite fold_left_sum, N.add_0_l. fold (weight_sum vals).
    destruct (N.eqb_spec fee 0) as [->|FZ].
    { intros [= <-].
      assert (Z : 0 / weight_sum vals = 0).
      { destruct (N.eq_dec (weight_sum vals) 0) as [->|H]; [done|by apply N.div_0_l]. }
      split; [|rewrite Z; cbn; lia].
      intros a. unfold shares. rewrite Z. unfold paid_to. cbn.
      unfold sumN. induction vals as [|v vals' IH] in |- *; [done|]. cbn. destruct (beqb _ _); cbn; done. }
    destruct (2^32 <=? weight_sum vals); [done|].
    destruct vals as [|v0 vals0] eqn:V; [intros [= <-]; split; [done|]; cbn; lia|]. rewrite <- V in *.
    destruct (N.eqb_spec (weight_sum vals) 0) as [|WZ]; [done|]. intros [= <-]. split.
    - intros a. unfold shares. generalize (fee / weight_sum vals). intros q. clear.
      unfold sumN. induction vals as [|v vals IH]; [done|]. cbn [map fold_right].
      rewrite paid_to_cons, IH. destruct (beqb_spec (v_address v) a) as [E|E].
      + by rewrite decide_True.
      + by rewrite decide_False.
    - rewrite map_map. cbn [snd]. unfold weight_sum. generalize (fee / sumN (map v_weight vals)). intros q.
      rewrite <- (sumN_scale q). by rewrite map_map.
  Qed.

  (** After a block every account has what it had after the transactions plus its shares of the
      collected fee, and the shares are bounded by it. *)
  Theorem C25_fee_split : forall s txs vals s' gas rs, exec_block s txs vals = Ok (s', gas, rs) ->
    c_number (xs_ctx s) <> 0 -> sumN (map x_fee_cost rs) < 2^256 ->
    let fee := sumN (map x_fee_cost rs) in
    exists limit s1, run limit s txs s1 rs /\
      (forall a, balance_of s' a = balance_of s1 a + shares fee vals a /\ nonce_of s' a = nonce_of s1 a) /\
      total (xs_acc s') = total (xs_acc s1) + fee / weight_sum vals * weight_sum vals /\
      fee / weight_sum vals * weight_sum vals <= fee /\
      (weight_sum vals <> 0 -> fee - fee / weight_sum vals * weight_sum vals < weight_sum vals).
  Proof using.
    intros s txs vals s' gas rs E NZ FB fee.
    apply exec_block_inv in E as (limit & s1 & f & l & m & mm & hf & _ & R & _ & _ & _ & F & AL & CR & _ & GA & _).
    rewrite (F FB) in AL. fold fee in AL. rewrite (proj2 (N.eqb_neq _ 0) NZ) in AL.
    apply allocate_spec in AL as [A1 A2]; [|done].
    exists limit, s1. split; [done|]. split; [|split; [|split]].
    - intros a. destruct (credit_spec _ _ _ CR a) as (B & C & _).
      unfold balance_of, balance, nonce_of in *. rewrite GA, B, C, A1. done.
    - rewrite <- A2, <- (credit_total _ _ _ CR). apply total_ext. intros a. unfold balance. by rewrite GA.
    - destruct (N.eq_dec (weight_sum vals) 0) as [->|W]; [lia|].
      rewrite N.mul_comm. by apply N.mul_div_le.
    - intros W. pose proof (N.div_mod fee (weight_sum vals) W). pose proof (N.mod_lt fee (weight_sum vals) W).
      rewrite (N.mul_comm (fee / weight_sum vals)). lia.
  Qed.

  (** With validators whose weights are all zero, or overflow 32 bits, a block that collected a fee cannot be executed. *)
  Theorem C25_zero_weight_refuted : forall number fee vals, number <> 0 -> fee <> 0 -> vals <> [] ->
    (weight_sum vals = 0 \/ 2^32 <= weight_sum vals) -> allocate number fee vals = Panic.
  Proof using.
    clear. intros number fee vals NZ FZ VZ W. unfold allocate.
    rewrite (proj2 (N.eqb_neq number 0) NZ), (proj2 (N.eqb_neq fee 0) FZ). cbn [orb].
    rewrite fold_left_sum, N.add_0_l. fold (weight_sum vals).
    destruct (N.leb_spec (2^32) (weight_sum vals)); [done|].
    destruct W as [W|W]; [|lia]. rewrite W. by destruct vals.
  Qed.

  (* ---------------------------------------------------------------------- *)
  (** * C24 *)

  (** the proposal counter of an address in the epoch of a block *)
  Fixpoint assoc (l : list (bytes * N)) (a : bytes) : option N :=
    match l with [] => None | (x, n) :: r => if beqb x a then Some n else assoc r a end.
  Definition proposals (m : meta) (n : N) (a : bytes) : option N :=
    match get_epoch_number (mt_segment m) n with
    | Some e => match mt_inner m !! e with Some i => assoc (mi_counter i) a | None => None end
    | None => None
    end.

  Lemma bump_assoc l a l' : bump l a = Ok l' -> forall b,
    assoc l' b = if decide (b = a) then option_map N.succ (assoc l b) else assoc l b.
  Proof.
    revert l'. induction l as [|[x n] l IH]; cbn; intros l' E b.
    - injection E as <-. by destruct (decide (b = a)).
    - destruct (beqb_spec x a) as [->|NA].
      + destruct (n =? U64_MAX); [done|]. injection E as <-. cbn.
        destruct (beqb_spec a b) as [->|NB].
        * rewrite decide_True by done. cbn. f_equal. lia.
        * by rewrite decide_False.
      + destruct (bump l a) as [l1| |] eqn:B; try done. injection E as <-. cbn.
        destruct (beqb_spec x b) as [->|NB].
        * by rewrite decide_False.
        * by apply IH.
  Qed.

  (** ABI values are 64-bit *)
  Definition meta_abi_ok : Prop := forall d md, meta_abi d = Some (McAppend md) -> mi_end (md_inner md) <= U64_MAX.

  Lemma update_states_rest s a l s' : update_states keccak s a l = Ok s' -> xs_meta s' = xs_meta s.
  Proof.
    unfold update_states. destruct (U256_MOD <=? _); [done|]. intros [= <-].
    match goal with |- context [apply_ops keccak ?s ?o ?l ?d] => apply (apply_ops_rest keccak s o l d) end.
  Qed.

  Lemma exec_tx_meta limit s t s' r : meta_abi_ok -> exec_tx evm limit s t = Ok (s', r) ->
    xs_meta s' = xs_meta s \/ mstep (xs_meta s) (xs_meta s').
  Proof.
    intros AB E. destruct (system_or_not t) as [SY|NS].
    2:{ left. by apply exec_tx_evm in E as (? & ? & _ & _ & ? & _). }
    destruct SY as (i & L & T). apply to_iff in T.
    unfold ExecModel.exec_tx, ExecModel.dispatch in E. rewrite T in E.
    match type of E with context [native_exec keccak ?x t] => set (s0 := x) in * end.
    assert (i = 0 \/ i = 1 \/ i = 2 \/ i = 3) as [->|[->|[->| ->]]] by lia.
    - change (beqb (repeat 255 19 ++ [0]) NATIVE) with true in E. cbn iota in E. left.
      destruct (native_exec keccak s0 t) as [[s1 x]| |] eqn:NE; [|done|done]. injection E as <- <-.
      unfold native_exec in NE. cbn zeta in NE.
      assert (RV : forall g, reverting s0 g = Ok (s1, x) -> xs_meta s1 = xs_meta s).
      { intros g. unfold reverting, revert_resp. destruct (g =? 0); [done|]. by intros [= <- <-]. }
      assert (FI : forall c ops, (if (c : bool) then Panic else Ok (apply_ops keccak s0 ops [] false, succeed_resp (gas_limit (unsigned_of t))))
            = Ok (s1, x) -> xs_meta s1 = xs_meta s).
      { intros c ops. destruct c; [done|]. intros [= <- <-]. by rewrite (proj1 (proj2 (apply_ops_rest keccak s0 ops [] false))). }
      unfold set_logs. cbn [xs_meta].
      destruct (tx_data (unsigned_of t)) as [|d rest] eqn:D; [by eapply RV|].
      destruct ((len (d :: rest) <? 21) || (1 <? d)); [by eapply RV|].
      destruct (d =? 0).
      + destruct (U256_MOD <=? a_balance _ + _); [done|]. by eapply FI.
      + destruct (a_balance _ <? _); [by eapply RV|]. by eapply FI.
    - change (beqb (repeat 255 19 ++ [1]) NATIVE) with false in E. cbn iota in E.
      change (beqb (repeat 255 19 ++ [1]) METADATA) with true in E. cbn iota in E.
      destruct (metadata_exec keccak meta_abi s0 t) as [[s1 x]| |] eqn:NE; [|done|done]. injection E as <- <-.
      unfold set_logs. cbn [xs_meta].
      assert (RV : forall g, reverting s0 g = Ok (s1, x) -> xs_meta s1 = xs_meta s).
      { intros g. unfold reverting, revert_resp. destruct (g =? 0); [done|]. by intros [= <- <-]. }
      unfold metadata_exec in NE. cbn zeta in NE.
      match type of NE with context [match ?q with Ok _ => _ | Err => _ | Panic => _ end] => destruct q as [[|]| |] eqn:AL end; try done.
      2,3: left; by eapply RV.
      match type of NE with context [match ?q with Ok _ => _ | Err => _ | Panic => _ end] => destruct q as [m| |] eqn:ML end; try done.
      2: left; by eapply RV.
      destruct (update_states keccak _ _ _) as [s2| |] eqn:U; try done. injection NE as <- <-.
      apply update_states_rest in U. rewrite U. unfold set_meta. cbn [xs_meta]. right.
      destruct (meta_abi _) as [[md|ci|c]|] eqn:MC; [| | |done].
      + eapply MS_append; [by eapply AB|exact ML].
      + injection ML as <-. constructor.
      + injection ML as <-. constructor.
    - change (beqb (repeat 255 19 ++ [2]) NATIVE) with false in E. cbn iota in E.
      change (beqb (repeat 255 19 ++ [2]) METADATA) with false in E. cbn iota in E.
      change (beqb (repeat 255 19 ++ [2]) CKB) with true in E. cbn iota in E. left.
      destruct (cells_exec keccak hdr_hash henc ckb_abi s0 t) as [[s1 x]| |] eqn:NE; [|done|done]. injection E as <- <-.
      unfold cells_exec in NE. destruct (cell_exec _ _ _ _) as [c [|]].
      2: unfold reverting, revert_resp in NE; destruct (gas_limit _ =? 0); [done|]; by injection NE as <- <-.
      destruct (update_states keccak _ _ _) as [s2| |] eqn:U; try done. injection NE as <- <-.
      apply update_states_rest in U. exact U.
    - change (beqb (repeat 255 19 ++ [3]) NATIVE) with false in E. cbn iota in E.
      change (beqb (repeat 255 19 ++ [3]) METADATA) with false in E. cbn iota in E.
      change (beqb (repeat 255 19 ++ [3]) CKB) with false in E. cbn iota in E.
      change (beqb (repeat 255 19 ++ [3]) IMAGE) with true in E. cbn iota in E. left.
      destruct (cells_exec keccak hdr_hash henc image_abi s0 t) as [[s1 x]| |] eqn:NE; [|done|done]. injection E as <- <-.
      unfold cells_exec in NE. destruct (cell_exec _ _ _ _) as [c [|]].
      2: unfold reverting, revert_resp in NE; destruct (gas_limit _ =? 0); [done|]; by injection NE as <- <-.
      destruct (update_states keccak _ _ _) as [s2| |] eqn:U; try done. injection NE as <- <-.
      apply update_states_rest in U. exact U.
  Qed.

  Lemma run_mreach limit s txs s' rs : meta_abi_ok -> run limit s txs s' rs -> mreach (xs_meta s) -> mreach (xs_meta s').
  Proof.
    intros AB R. induction R as [|s t s1 r txs s2 rs E R IH]; [done|]. intros M. apply IH.
    destruct (exec_tx_meta _ _ _ _ _ AB E) as [->|ST]; [done|by econstructor].
  Qed.

  (** what happens to the metadata store after the transactions *)
  Lemma after_block_inv m0 hf n origin extra m hf' : n <> 0 -> meta_after_block m0 hf n origin extra = Ok (m, hf') ->
    exists m1, (m1 = m0 \/ exists b f, m1 = set_hardfork_info m0 b f) /\ update_propose_count m1 n origin = Ok m /\
      hf' = hardfork_info m1 n.
  Proof.
    intros NZ MA. unfold meta_after_block in MA. rewrite (proj2 (N.eqb_neq _ 0) NZ) in MA.
    match type of MA with context [update_propose_count ?x _ _] => set (m1 := x) in * end.
    destruct (update_propose_count m1 _ _) as [m2| |] eqn:U; try done. injection MA as <- <-.
    exists m1. split; [|done]. subst m1. destruct extra as [|e ?]; [by left|]. destruct (dec_hardfork e) as [[b f]|]; [|by left].
    right. eauto.
  Qed.

  (** Block execution keeps the metadata store reachable, so the C28 and C43 theorems apply along any chain. *)
  Lemma exec_block_mreach s txs vals s' gas rs : meta_abi_ok -> exec_block s txs vals = Ok (s', gas, rs) ->
    mreach (xs_meta s) -> mreach (xs_meta s').
  Proof.
    intros AB E M.
    apply exec_block_inv in E as (limit & s1 & f & l & m & mm & hf & _ & R & _ & _ & _ & _ & _ & _ & MA & _ & -> & _).
    pose proof (run_mreach _ _ _ _ _ AB R M) as M1.
    destruct (N.eqb_spec (c_number (xs_ctx s)) 0) as [Z|NZ].
    - rewrite Z in MA. unfold meta_after_block in MA. cbn in MA. by injection MA as <- _.
    - apply after_block_inv in MA as (m1 & H & U & _); [|done].
      econstructor; [|by eapply MS_count]. destruct H as [->|(b & fl & ->)]; [done|]. econstructor; [done|]. constructor.
  Qed.

  (** In any block the counter that moves is the one of the last transaction's sender; only in an empty
      block is it the proposer's ([c_origin] is the proposer when the block starts). *)
  Theorem C24_last_sender_partial : forall s txs vals s' gas rs, exec_block s txs vals = Ok (s', gas, rs) ->
    meta_abi_ok -> mreach (xs_meta s) -> c_number (xs_ctx s) <> 0 ->
    let credited := match List.rev txs with [] => c_origin (xs_ctx s) | t :: _ => s_sender t end in
    exists limit s1, run limit s txs s1 rs /\
      forall a, proposals (xs_meta s') (c_number (xs_ctx s)) a =
        if decide (a = credited) then option_map N.succ (proposals (xs_meta s1) (c_number (xs_ctx s)) a)
        else proposals (xs_meta s1) (c_number (xs_ctx s)) a.
  Proof using.
    intros s txs vals s' gas rs E AB M NZ credited.
    apply exec_block_inv in E as (limit & s1 & f & l & m & mm & hf & _ & R & _ & _ & _ & _ & _ & _ & MA & _ & MM & _).
    exists limit, s1. split; [done|]. intros a.
    pose proof (mreach_inv _ (run_mreach _ _ _ _ _ AB R M)) as I.
    pose proof (run_ctx _ _ _ _ _ R) as (_ & _ & _ & OR). fold credited in OR. rewrite OR in MA.
    apply after_block_inv in MA as (m1 & H & U & _); [|done].
    assert (S12 : mt_segment m1 = mt_segment (xs_meta s1) /\ mt_inner m1 = mt_inner (xs_meta s1)).
    { by destruct H as [->|(b & fl & ->)]. }
    destruct S12 as [S1 S2].
    apply count_inv in U as (e & i & c & G & L & B & ->). rewrite S1, S2 in *. rewrite MM.
    pose proof (mi_ent _ I _ _ L) as (EI & _).
    unfold proposals. cbn [mt_segment mt_inner]. rewrite G, EI, lookup_insert, L. cbn [mi_counter].
    by apply bump_assoc.
  Qed.

  Theorem C24_empty_block_partial : forall s vals s' gas rs, exec_block s [] vals = Ok (s', gas, rs) ->
    meta_abi_ok -> mreach (xs_meta s) -> c_number (xs_ctx s) <> 0 ->
    forall a, proposals (xs_meta s') (c_number (xs_ctx s)) a =
      if decide (a = c_origin (xs_ctx s)) then option_map N.succ (proposals (xs_meta s) (c_number (xs_ctx s)) a)
      else proposals (xs_meta s) (c_number (xs_ctx s)) a.
  Proof using.
    intros s vals s' gas rs E AB M NZ a.
    destruct (C24_last_sender_partial _ _ _ _ _ _ E AB M NZ) as (limit & s1 & R & H).
    inversion R; subst. apply H.
  Qed.

  (** Each contract owns its data: only a call to address 1 changes the metadata store, only calls to 2 and 3 the cells. *)
  Theorem C27_effects : forall limit s t s' r, exec_tx evm limit s t = Ok (s', r) ->
    (xs_meta s' = xs_meta s \/ to_system 1 t) /\ (xs_cells s' = xs_cells s \/ to_system 2 t \/ to_system 3 t).
  Proof using.
    intros limit s t s' r E. destruct (system_or_not t) as [SY|NS].
    2:{ unfold ExecModel.exec_tx in E. rewrite dispatch_other in E by done. unfold evm_exec in E. cbn zeta in E.
      match type of E with context [evm ?x limit t] => set (s1 := x) in * end.
      destruct (U256_MOD <=? _); [done|]. injection E as <- _. unfold set_logs, save_account, set_acc. cbn [xs_meta xs_cells].
      destruct (is_succeed _); [|split; left; done].
      split; left; [by rewrite (proj1 (proj2 (apply_ops_rest keccak _ _ _ _)))
                   |by rewrite (proj1 (proj2 (proj2 (apply_ops_rest keccak _ _ _ _))))]. }
    assert (US : forall s a l s', update_states keccak s a l = Ok s' -> xs_cells s' = xs_cells s).
    { clear. intros s a l s'. unfold update_states. destruct (U256_MOD <=? _); [done|]. intros [= <-].
      match goal with |- context [apply_ops keccak ?s ?o ?l ?d] => apply (apply_ops_rest keccak s o l d) end. }
    destruct SY as (i & L & T). pose proof T as T0. apply to_iff in T.
    unfold ExecModel.exec_tx, ExecModel.dispatch in E. rewrite T in E.
    match type of E with context [native_exec keccak ?x t] => set (s0 := x) in * end.
    assert (i = 0 \/ i = 1 \/ i = 2 \/ i = 3) as [->|[->|[->| ->]]] by lia.
    - change (beqb (repeat 255 19 ++ [0]) NATIVE) with true in E. cbn iota in E.
      destruct (native_exec keccak s0 t) as [[s1 x]| |] eqn:NE; [|done|done]. injection E as <- <-.
      unfold native_exec in NE. cbn zeta in NE.
      assert (RV : forall g, reverting s0 g = Ok (s1, x) -> xs_meta s1 = xs_meta s /\ xs_cells s1 = xs_cells s).
      { intros g. unfold reverting, revert_resp. destruct (g =? 0); [done|]. by intros [= <- <-]. }
      assert (FI : forall c ops, (if (c : bool) then Panic else Ok (apply_ops keccak s0 ops [] false, succeed_resp (gas_limit (unsigned_of t))))
            = Ok (s1, x) -> xs_meta s1 = xs_meta s /\ xs_cells s1 = xs_cells s).
      { intros c ops. destruct c; [done|]. intros [= <- <-]. destruct (apply_ops_rest keccak s0 ops [] false) as (_ & -> & -> & _). done. }
      unfold set_logs. cbn [xs_meta xs_cells].
      assert (G : xs_meta s1 = xs_meta s /\ xs_cells s1 = xs_cells s); [|split; left; apply G].
      destruct (tx_data (unsigned_of t)) as [|d rest] eqn:D; [by eapply RV|].
      destruct ((len (d :: rest) <? 21) || (1 <? d)); [by eapply RV|].
      destruct (d =? 0).
      + destruct (U256_MOD <=? a_balance _ + _); [done|]. by eapply FI.
      + destruct (a_balance _ <? _); [by eapply RV|]. by eapply FI.
    - split; [by right|left].
      change (beqb (repeat 255 19 ++ [1]) NATIVE) with false in E. cbn iota in E.
      change (beqb (repeat 255 19 ++ [1]) METADATA) with true in E. cbn iota in E.
      destruct (metadata_exec keccak meta_abi s0 t) as [[s1 x]| |] eqn:NE; [|done|done]. injection E as <- <-.
      unfold set_logs. cbn [xs_cells].
      assert (RV : forall g, reverting s0 g = Ok (s1, x) -> xs_cells s1 = xs_cells s).
      { intros g. unfold reverting, revert_resp. destruct (g =? 0); [done|]. by intros [= <- <-]. }
      unfold metadata_exec in NE. cbn zeta in NE.
      match type of NE with context [match ?q with Ok _ => _ | Err => _ | Panic => _ end] => destruct q as [[|]| |] eqn:AL end; try done.
      2,3: by eapply RV.
      match type of NE with context [match ?q with Ok _ => _ | Err => _ | Panic => _ end] => destruct q as [m| |] eqn:ML end; try done.
      2: by eapply RV.
      destruct (update_states keccak _ _ _) as [s2| |] eqn:U; try done. injection NE as <- <-.
      apply US in U. exact U.
    - split; [left|right; by left].
      change (beqb (repeat 255 19 ++ [2]) NATIVE) with false in E. cbn iota in E.
      change (beqb (repeat 255 19 ++ [2]) METADATA) with false in E. cbn iota in E.
      change (beqb (repeat 255 19 ++ [2]) CKB) with true in E. cbn iota in E.
      destruct (cells_exec keccak hdr_hash henc ckb_abi s0 t) as [[s1 x]| |] eqn:NE; [|done|done]. injection E as <- <-.
      unfold cells_exec in NE. destruct (cell_exec _ _ _ _) as [c [|]].
      2: unfold reverting, revert_resp in NE; destruct (gas_limit _ =? 0); [done|]; by injection NE as <- <-.
      destruct (update_states keccak _ _ _) as [s2| |] eqn:U; try done. injection NE as <- <-.
      apply update_states_rest in U. exact U.
    - split; [left|right; by right].
      change (beqb (repeat 255 19 ++ [3]) NATIVE) with false in E. cbn iota in E.
      change (beqb (repeat 255 19 ++ [3]) METADATA) with false in E. cbn iota in E.
      change (beqb (repeat 255 19 ++ [3]) CKB) with false in E. cbn iota in E.
      change (beqb (repeat 255 19 ++ [3]) IMAGE) with true in E. cbn iota in E.
      destruct (cells_exec keccak hdr_hash henc image_abi s0 t) as [[s1 x]| |] eqn:NE; [|done|done]. injection E as <- <-.
      unfold cells_exec in NE. destruct (cell_exec _ _ _ _) as [c [|]].
      2: unfold reverting, revert_resp in NE; destruct (gas_limit _ =? 0); [done|]; by injection NE as <- <-.
      destruct (update_states keccak _ _ _) as [s2| |] eqn:U; try done. injection NE as <- <-.
      apply update_states_rest in U. exact U.
  Qed.

  (** and each one understands its own call data only *)
  Theorem C27_own_abi : forall meta_abi' ckb_abi' image_abi' limit s t,
    let run_with m c i := ExecModel.exec_tx keccak m hdr_hash henc c i evm limit s t in
    (to_system 0 t -> run_with meta_abi ckb_abi image_abi = run_with meta_abi' ckb_abi' image_abi') /\
    (to_system 1 t -> run_with meta_abi ckb_abi image_abi = run_with meta_abi ckb_abi' image_abi') /\
    (to_system 2 t -> run_with meta_abi ckb_abi image_abi = run_with meta_abi' ckb_abi image_abi') /\
    (to_system 3 t -> run_with meta_abi ckb_abi image_abi = run_with meta_abi' ckb_abi' image_abi).
  Proof using.
    intros meta_abi' ckb_abi' image_abi' limit s t rw. subst rw. cbn beta.
    repeat split; intros T; apply to_iff in T; unfold ExecModel.exec_tx, ExecModel.dispatch; rewrite T; reflexivity.
  Qed.

  (* ---------------------------------------------------------------------- *)
  (** * C58 *)

  (** tokens issued by a transaction *)
  Definition issued (t : stx) : N :=
    match tx_action (unsigned_of t), tx_data (unsigned_of t) with
    | Call a, 0 :: _ => if beqb a (repeat 255 19 ++ [0]) then tx_value (unsigned_of t) else 0
    | _, _ => 0
    end.
  (** fee reported by a reverted system transaction, which nobody pays *)
  Definition unpaid (r : tx_resp) : N := match x_exit r with XRevert _ => 1 | _ => 0 end.

  Definition solvent (s : xstate) (t : stx) : Prop :=
    is_system t \/ price_of t * limit_of t <= balance_of s (s_sender t).

  Lemma set_total m m' a x : (forall c, get_account m' c = if decide (a = c) then x else get_account m c) ->
    total m' + balance m a = total m + a_balance x.
  Proof.
    intros H. rewrite <- (total_insert m a x). f_equal. apply total_ext. intros c. unfold balance. rewrite H.
    destruct (decide (a = c)) as [<-|N]; [by rewrite get_insert|by rewrite get_insert_ne].
  Qed.

  Lemma tx_supply limit s t s' r : evm_gas_ok -> evm_conserves -> exec_tx evm limit s t = Ok (s', r) -> solvent s t ->
    total (xs_acc s') + x_fee_cost r <= total (xs_acc s) + issued t + unpaid r.
  Proof.
    intros EG EC E S.
    destruct (system_or_not t) as [SY|NS].
    - apply exec_tx_system in E as (_ & _ & _ & _ & [(XE & F & _ & A & _)|(XE & F & _ & [(T & a & d & b & TC & D1 & BB & H)|(NT & H)])]); [| | |done].
      + rewrite A, F. unfold unpaid. rewrite XE. lia.
      + apply set_total in H. cbn [a_balance] in H. rewrite F. unfold balance_of in BB.
        destruct TC as (T1 & LA & rest & D). unfold issued. rewrite D. unfold to_system in T. rewrite T.
        change (beqb (repeat 255 19 ++ [0]) (repeat 255 19 ++ [0])) with true. cbn iota.
        destruct (N.eqb_spec d 0) as [->|NZ]; [lia|].
        destruct d; [done|]. lia.
      + apply set_total in H. cbn [a_balance] in H. rewrite F. unfold balance in H. lia.
    - destruct S as [S|S]; [done|].
      pose proof (C23_conserves_partial _ _ _ _ _ EG EC NS E S). lia.
  Qed.

  (** A block in which every EVM sender can afford its gas limit does not create balance beyond issued
      tokens, except for one unit per reverted system transaction. *)
  Theorem C58_supply_partial : forall s txs vals s' gas rs, evm_gas_ok -> evm_conserves ->
    exec_block s txs vals = Ok (s', gas, rs) ->
    (forall limit pre t post s1 rpre, txs = pre ++ t :: post -> run limit s pre s1 rpre -> solvent s1 t) ->
    total (xs_acc s') <= total (xs_acc s) + sumN (map issued txs) + sumN (map unpaid rs).
  Proof using.
    intros s txs vals s' gas rs EG EC E SV.
    apply exec_block_inv in E as (limit & s1 & fee & l & m & mm & hf & _ & R & _ & _ & F & _ & AL & CR & _ & GA & _).
    assert (T1 : total (xs_acc s1) + sumN (map x_fee_cost rs) <= total (xs_acc s) + sumN (map issued txs) + sumN (map unpaid rs)).
    { specialize (SV limit). clear -R SV EG EC. induction R as [s|s t s1 r txs s2 rs E R IH].
      - cbn. lia.
      - cbn [map]. unfold sumN in *. cbn [fold_right].
        pose proof (tx_supply _ _ _ _ _ EG EC E (SV [] t txs s [] eq_refl (run_nil _ _))).
        assert (total (xs_acc s2) + fold_right N.add 0 (map x_fee_cost rs) <=
                total (xs_acc s1) + fold_right N.add 0 (map issued txs) + fold_right N.add 0 (map unpaid rs)).
        { apply IH. intros pre t' post s1' rpre -> R'. apply (SV (t :: pre) t' post s1' (r :: rpre) eq_refl). by econstructor. }
        lia. }
    assert (T2 : total m <= total (xs_acc s1) + fee).
    { rewrite (credit_total _ _ _ CR). destruct (N.eqb_spec (c_number (xs_ctx s)) 0) as [|NZ].
      - injection AL as <-. cbn. lia.
      - apply allocate_spec in AL as [_ ->]; [|done].
        destruct (N.eq_dec (weight_sum vals) 0) as [->|W]; [lia|].
        rewrite (N.mul_comm (fee / _)). pose proof (N.mul_div_le fee (weight_sum vals) W). lia. }
    rewrite (total_ext (xs_acc s') m); [lia|]. intros a. unfold balance. by rewrite GA.
  Qed.

  (* ---------------------------------------------------------------------- *)
  (** * C43: when a hardfork takes effect in execution *)

  (** The flags used while executing a block are those of the previous block's number. *)
  Theorem C43_flags_of_previous_block : forall s txs vals s' gas rs, exec_block s txs vals = Ok (s', gas, rs) ->
    c_number (xs_ctx s) <> 0 -> xs_hf s' = hardfork_info (xs_meta s') (c_number (xs_ctx s)).
  Proof using.
    intros s txs vals s' gas rs E NZ.
    apply exec_block_inv in E as (limit & s1 & fee & l & m & mm & hf & _ & _ & _ & _ & _ & _ & _ & _ & MA & _ & -> & ->).
    unfold meta_after_block in MA. rewrite (proj2 (N.eqb_neq _ 0) NZ) in MA.
    match type of MA with context [update_propose_count ?x _ _] => set (m1 := x) in * end.
    destruct (update_propose_count m1 _ _) as [m2| |] eqn:U; try done. injection MA as <- <-.
    apply count_inv in U as (e & i & c & G & L & B & ->). done.
  Qed.
End Props.

(* ------------------------------------------------------------------------ *)
(** * Concrete executions *)

(** An interpreter that only knows plain transfers, at 21000 gas. *)
Definition ex_evm (s : xstate) (_ : N) (t : stx) : evm_out :=
  let u := unsigned_of t in
  let from := get_account (xs_acc s) (s_sender t) in
  let fail := EvmOut (XRevert 0) [] (gas_limit u - 21000) 21000 [] [] in
  if gas_limit u <? 21000 then EvmOut (XError (XErr 9 PUnit)) [] 0 (gas_limit u) [] []
  else match tx_action u with
  | Create => fail
  | Call to =>
      if a_balance from <? tx_value u then fail
      else if beqb to (s_sender t) then EvmOut (XSucceed 0) [] (gas_limit u - 21000) 21000 [] []
      else
        let dest := get_account (xs_acc s) to in
        EvmOut (XSucceed 0) [] (gas_limit u - 21000) 21000
          [AModify (s_sender t) (a_nonce from + 1) (a_balance from - tx_value u) None [] false;
           AModify to (a_nonce dest) (a_balance dest + tx_value u) None [] false] []
  end.

Definition ex_keccak (b : bytes) : bytes := b.
Definition ex_meta_abi (_ : bytes) : option meta_call := None.
Definition ex_cell_abi (b : bytes) : option (@cell_call unit) := match b with [1] => Some (CkbSetState true) | _ => None end.
Notation ex_exec_tx := (exec_tx ex_keccak ex_meta_abi (fun _ : unit => []) (fun _ => []) ex_cell_abi ex_cell_abi ex_evm).
Notation ex_exec_block := (exec_block ex_keccak ex_meta_abi (fun _ : unit => []) (fun _ => []) ex_cell_abi ex_cell_abi ex_evm).

Lemma ex_gas_ok : evm_gas_ok ex_evm.
Proof.
  intros s limit t. unfold ex_evm, limit_of. cbn zeta.
  destruct (N.ltb_spec (gas_limit (unsigned_of t)) 21000); cbn; [lia|].
  destruct (tx_action _); cbn; [|lia]. destruct (_ <? _); cbn; [lia|]. destruct (beqb _ _); cbn; lia.
Qed.

Lemma apply_modify_balance s a n b : forall c,
  balance (xs_acc (apply_one ex_keccak true s (AModify a n b None [] false))) c =
  if decide (a = c) then b else balance (xs_acc s) c.
Proof.
  intros c. unfold apply_one, modify. cbn zeta. cbn [write_slots fold_left].
  match goal with |- context [if ?x then _ else _] => destruct x eqn:X end.
  - apply andb_true_iff in X as [X _]. apply andb_true_iff in X as [X _]. apply andb_true_iff in X as [X _].
    apply N.eqb_eq in X. subst b. unfold set_acc, balance, get_account. cbn [xs_acc].
    destruct (decide (a = c)) as [<-|NE]; [by rewrite lookup_delete|].
    by rewrite lookup_delete_ne, lookup_insert_ne.
  - unfold balance, get_account. cbn [xs_acc].
    destruct (decide (a = c)) as [<-|NE]; [by rewrite lookup_insert|by rewrite lookup_insert_ne].
Qed.

Lemma ex_conserves : evm_conserves ex_keccak ex_evm.
Proof.
  intros s limit t. unfold ex_evm. cbn zeta.
  destruct (gas_limit (unsigned_of t) <? 21000); [done|].
  destruct (tx_action _) as [to|]; [|done]. destruct (N.ltb_spec (a_balance (get_account (xs_acc s) (s_sender t))) (tx_value (unsigned_of t))) as [|L]; [done|].
  destruct (beqb_spec to (s_sender t)) as [->|NE]; [intros _; apply N.le_refl|]. intros _. cbn [eo_values eo_logs].
  unfold apply_ops, set_logs. cbn [fold_left xs_acc].
  set (b1 := a_balance (get_account (xs_acc s) (s_sender t)) - tx_value (unsigned_of t)).
  set (b2 := a_balance (get_account (xs_acc s) to) + tx_value (unsigned_of t)).
  rewrite (total_ext _ (<[to := Acc 0 b2 ∅ []]> (<[s_sender t := Acc 0 b1 ∅ []]> (xs_acc s)))).
  2:{ intros c. rewrite !apply_modify_balance. unfold balance.
      destruct (decide (to = c)) as [<-|N1]; [by rewrite get_insert|]. rewrite get_insert_ne by done.
      destruct (decide (s_sender t = c)) as [<-|N2]; [by rewrite get_insert|]. by rewrite get_insert_ne. }
  pose proof (total_insert (<[s_sender t := Acc 0 b1 ∅ []]> (xs_acc s)) to (Acc 0 b2 ∅ [])) as T1.
  pose proof (total_insert (xs_acc s) (s_sender t) (Acc 0 b1 ∅ [])) as T2.
  unfold balance in *. rewrite get_insert_ne in T1 by done. cbn [a_balance] in *. unfold b1, b2 in *. lia.
Qed.

Definition ex_tx (price gl : N) (act : action) (value : N) (data sender : bytes) : stx :=
  Stx (Utx (Legacy (LegacyTx 0 price gl act value data)) None None []) sender None.
Definition alice : bytes := repeat 7 20.
Definition bob : bytes := repeat 9 20.
Definition ex_state (n : N) (l : list (bytes * N)) : xstate :=
  XState (list_to_map (map (fun p => (fst p, Acc 0 (snd p) ∅ NIL_CODE)) l)) ∅ []
    (XCtx n (repeat 1 20) 0 []) ex_meta ∅ 0.
Definition sys (i : N) : action := Call (repeat 255 19 ++ [i]).

Definition ex_block : list stx :=
  [ex_tx 3 30000 (Call bob) 500 [] alice; ex_tx 2 25000 Create 0 [1;2] alice;
   ex_tx 1 100 (sys 0) 77 (0 :: bob) alice; ex_tx 1 100 (sys 2) 0 [1] bob].

Lemma not_sys_call a price gl v d s : (forall i, i < 4 -> a <> repeat 255 19 ++ [i]) ->
  ~ is_system (ex_tx price gl (Call a) v d s).
Proof. intros H (i & L & [= E]). by apply (H i L). Qed.

Lemma ok_block (o : outcome (xstate * N * list tx_resp)) (P : xstate -> N -> list tx_resp -> Prop)
    `{D : forall s g r, Decision (P s g r)} :
  match o with Ok (s, g, r) => bool_decide (P s g r) | _ => false end = true ->
  exists s g r, o = Ok (s, g, r) /\ P s g r.
Proof. destruct o as [[[s g] r]| |]; try done. intros H. exists s, g, r. split; [done|]. by apply bool_decide_eq_true in H. Qed.
Lemma ok_tx (o : outcome (xstate * tx_resp)) (P : xstate -> tx_resp -> Prop) `{D : forall s r, Decision (P s r)} :
  match o with Ok (s, r) => bool_decide (P s r) | _ => false end = true ->
  exists s r, o = Ok (s, r) /\ P s r.
Proof. destruct o as [[s r]| |]; try done. intros H. exists s, r. split; [done|]. by apply bool_decide_eq_true in H. Qed.
Ltac compute_block := eapply ok_block; vm_compute; reflexivity.
Ltac compute_tx := eapply ok_tx; vm_compute; reflexivity.

(** a block of four transactions: a transfer, a failing creation, a token issue, a light client call *)
Example C21_ex : exists s' gas rs,
  ex_exec_block (ex_state 120 [(alice, 1000000)]) ex_block [ex_val 1 1; ex_val 2 3] = Ok (s', gas, rs) /\
  gas = 42000 /\ map x_gas_used rs = [21000; 21000; 0; 0] /\ map x_fee_cost rs = [63000; 42000; 0; 0] /\
  balance_of s' alice = 1000000 - 500 - 63000 - 42000 /\ balance_of s' bob = 577 /\
  nonce_of s' alice = 2 /\ nonce_of s' bob = 2 /\
  balance_of s' (repeat 1 20) = 26250 /\ balance_of s' (repeat 2 20) = 78750.
Proof. compute_block. Qed.

Example C22_ex : ~ is_system (ex_tx 3 30000 (Call bob) 500 [] alice) /\ exists s' r,
  ex_exec_tx 0 (ex_state 120 [(alice, 1000000)]) (ex_tx 3 30000 (Call bob) 500 [] alice) = Ok (s', r) /\
  is_succeed (x_exit r) = true /\ nonce_of s' alice = 1.
Proof. split; [apply not_sys_call; intros i _ [=]|]. compute_tx. Qed.

(** failing and succeeding cases of C23 *)
Example C23_ex :
  (exists s' r, ex_exec_tx 0 (ex_state 120 [(alice, 1000000)]) (ex_tx 2 25000 Create 0 [1;2] alice) = Ok (s', r) /\
     is_succeed (x_exit r) = false /\ x_remain_gas r + x_gas_used r = 25000 /\ balance_of s' alice = 1000000 - 42000) /\
  (exists s' r, ex_exec_tx 0 (ex_state 120 [(alice, 1000000)]) (ex_tx 3 30000 (Call bob) 500 [] alice) = Ok (s', r) /\
     is_succeed (x_exit r) = true /\ balance_of s' alice = 1000000 - 63000 - 500).
Proof. split; compute_tx. Qed.

(** The prepayment saturates at zero but the whole unused gas is paid back: a sender without any balance ends
      with 9000 although the interpreter moved nothing. *)
Theorem C23_mint_refuted : exists s t, ~ is_system t /\ tx_value (unsigned_of t) = 0 /\ total (xs_acc s) = 0 /\
  exists s' r, ex_exec_tx 0 s t = Ok (s', r) /\
    is_succeed (x_exit r) = true /\ balance_of s' (s_sender t) = 9000 /\ total (xs_acc s') = 9000.
Proof.
  exists (ex_state 120 []), (ex_tx 1 30000 (Call bob) 0 [] alice).
  split; [apply not_sys_call; intros i _ [=]|]. split; [done|]. split; [done|]. compute_tx.
Qed.

(** Refunded gas (used + remaining below the limit) is taken from the sender but is not in the reported fee. *)
Definition refund_evm (s : xstate) (_ : N) (t : stx) : evm_out :=
  EvmOut (XSucceed 0) [] (limit_of t - 30000) 24000 [] [].
Theorem C23_refund_refuted : exists s t, ~ is_system t /\ exists s' r,
  exec_tx ex_keccak ex_meta_abi (fun _ : unit => []) (fun _ => []) ex_cell_abi ex_cell_abi refund_evm 0 s t = Ok (s', r) /\
  x_fee_cost r = 24000 /\ balance_of s' (s_sender t) + 30000 = balance_of s (s_sender t).
Proof.
  exists (ex_state 120 [(alice, 1000000)]), (ex_tx 1 50000 (Call bob) 0 [] alice).
  split; [apply not_sys_call; intros i _ [=]|]. compute_tx.
Qed.

(** In a block with transactions the proposer (validator 1) is not credited; the last sender (validator 2) is. *)
Theorem C24_refuted : exists s txs vals, mreach (xs_meta s) /\ c_origin (xs_ctx s) = repeat 1 20 /\
  exists s' gas rs, ex_exec_block s txs vals = Ok (s', gas, rs) /\
    proposals (xs_meta s) 120 (repeat 1 20) = Some 0 /\ proposals (xs_meta s') 120 (repeat 1 20) = Some 0 /\
    proposals (xs_meta s) 120 (repeat 2 20) = Some 1 /\ proposals (xs_meta s') 120 (repeat 2 20) = Some 2.
Proof.
  exists (ex_state 120 [(repeat 2 20, 1000000)]), [ex_tx 1 30000 (Call bob) 5 [] (repeat 2 20)], [ex_val 1 1; ex_val 2 3].
  split; [exact (mtrace_reach _ _ ex_trace)|]. split; [done|]. compute_block.
Qed.

Example C24_ex : mreach (xs_meta (ex_state 120 [])) /\ meta_abi_ok ex_meta_abi /\
  exists s' gas rs, ex_exec_block (ex_state 120 []) [] [] = Ok (s', gas, rs) /\
    proposals (xs_meta s') 120 (repeat 1 20) = Some 1.
Proof.
  split; [exact (mtrace_reach _ _ ex_trace)|]. split; [intros d md; discriminate|]. compute_block.
Qed.

Example C26_ex : token_call (ex_tx 1 100 (sys 0) 77 (0 :: bob) alice) 0 bob /\
  token_call (ex_tx 1 100 (sys 0) 78 (1 :: bob ++ [5]) alice) 1 bob /\
  (exists s' r, ex_exec_tx 0 (ex_state 120 []) (ex_tx 1 100 (sys 0) 77 (0 :: bob) alice) = Ok (s', r) /\ balance_of s' bob = 77) /\
  (exists s' r, ex_exec_tx 0 (ex_state 120 [(bob, 77)]) (ex_tx 1 100 (sys 0) 78 (1 :: bob ++ [5]) alice) = Ok (s', r) /\
     is_succeed (x_exit r) = false) /\
  (exists s' r, ex_exec_tx 0 (ex_state 120 [(bob, 78)]) (ex_tx 1 100 (sys 0) 78 (1 :: bob ++ [5]) alice) = Ok (s', r) /\
     is_succeed (x_exit r) = true /\ balance_of s' bob = 0).
Proof.
  split; [split; [done|split; [done|by exists []]]|]. split; [split; [done|split; [done|by exists [5]]]|].
  split; [compute_tx|]. split; compute_tx.
Qed.

Example C57_ex : is_system (ex_tx 1 100 (sys 2) 0 [1] alice) /\
  (exists s' r, ex_exec_tx 0 (ex_state 120 []) (ex_tx 1 100 (sys 2) 0 [1] alice) = Ok (s', r) /\ nonce_of s' alice = 1) /\
  (exists s' r, ex_exec_tx 0 (ex_state 120 []) (ex_tx 1 100 (sys 2) 0 [2] alice) = Ok (s', r) /\
     is_succeed (x_exit r) = false /\ nonce_of s' alice = 0).
Proof.
  split; [exists 2; split; [lia|done]|]. split; compute_tx.
Qed.

(** The fee of a reverted system transaction is paid to the validators but by nobody. *)
Theorem C58_refuted : exists s txs vals, sumN (map issued txs) = 0 /\ total (xs_acc s) = 0 /\
  exists s' gas rs, ex_exec_block s txs vals = Ok (s', gas, rs) /\
    total (xs_acc s') = 1 /\ balance_of s' (repeat 1 20) = 1.
Proof.
  exists (ex_state 120 []), [ex_tx 1 100 (sys 2) 0 [2] (repeat 2 20)], [ex_val 1 1].
  split; [done|]. split; [done|]. compute_block.
Qed.

Example C58_ex : evm_gas_ok ex_evm /\ evm_conserves ex_keccak ex_evm /\
  solvent (ex_state 120 [(alice, 1000000)]) (ex_tx 3 30000 (Call bob) 500 [] alice) /\
  exists s' gas rs, ex_exec_block (ex_state 120 [(alice, 1000000)]) ex_block [ex_val 1 1; ex_val 2 3] = Ok (s', gas, rs) /\
    total (xs_acc (ex_state 120 [(alice, 1000000)])) = 1000000 /\ total (xs_acc s') = 1000077.
Proof.
  split; [apply ex_gas_ok|]. split; [apply ex_conserves|]. split; [right; vm_compute; discriminate|]. compute_block.
Qed.

(** The block whose number activates the hardfork still runs with the old contract size limit. *)
Theorem C43_activation_block_refuted : exists s n c,
  c_number (xs_ctx s) = n /\ mreach (xs_meta s) /\ xs_hf s = hardfork_info (xs_meta s) (n - 1) /\
  active (xs_meta s) n 56 /\ get_consensus_config (xs_meta s) = Ok c /\
  contract_limit s = Ok default_max_contract_limit /\ cf_max_contract c <> default_max_contract_limit.
Proof.
  eexists (ex_state 130 []), 130, ex_cfg. split; [done|]. split; [exact (mtrace_reach _ _ ex_trace)|].
  split; [vm_compute; reflexivity|]. split; [unfold active; vm_compute; done|].
  split; [vm_compute; reflexivity|]. split; [vm_compute; reflexivity|]. vm_compute. discriminate.
Qed.

Print Assumptions C21_accounting.
Print Assumptions C22_nonce.
Print Assumptions C22_total.
Print Assumptions C23_failed_partial.
Print Assumptions C23_success_partial.
Print Assumptions C23_conserves_partial.
Print Assumptions C23_mint_refuted.
Print Assumptions C23_refund_refuted.
Print Assumptions C24_last_sender_partial.
Print Assumptions C24_empty_block_partial.
Print Assumptions C24_refuted.
Print Assumptions C25_fee_split.
Print Assumptions C25_zero_weight_refuted.
Print Assumptions C26_issue.
Print Assumptions C26_burn.
Print Assumptions C26_malformed.
Print Assumptions C26_any_caller_refuted.
Print Assumptions C26_overflow_refuted.
Print Assumptions C27_system_ignores_evm.
Print Assumptions C27_others_run_evm.
Print Assumptions C27_effects.
Print Assumptions C27_own_abi.
Print Assumptions C43_flags_of_previous_block.
Print Assumptions C43_activation_block_refuted.
Print Assumptions C57_other_contracts_partial.
Print Assumptions C57_reverted_refuted.
Print Assumptions C57_token_refuted.
Print Assumptions C58_supply_partial.
Print Assumptions C58_refuted.
