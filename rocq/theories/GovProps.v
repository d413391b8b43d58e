(** C70: who can change the chain's metadata (epochs, validators, consensus configuration). *)
From stdpp Require Import base gmap list.
From Verif Require Import Bytes BytesProofs Rlp TxModel BlockModel MempoolModel CellModel MetaModel MetaProofs MetaProps ExecModel ExecProofs ExecProps.
From Coq Require Import Lia.
Local Open Scope N_scope.

(** [a] is one of the validators of block [n]'s epoch *)
Definition validator_at (m : meta) (n : N) (a : bytes) : Prop :=
  exists md v, metadata_by_block m n = Ok md /\ v ∈ mi_verifiers (md_inner md) /\ v_address v = a.
(** what a decoded call does to the store; appending is specified by C28 *)
Definition call_effect (hf : N) (m : meta) (c : meta_call) (m' : meta) : Prop :=
  match c with
  | McAppend md => append_metadata hf m md = Ok m'
  | McCkb i => mt_ckb m' = Some i /\ mt_segment m' = mt_segment m /\ mt_inner m' = mt_inner m /\ mt_config m' = mt_config m /\ mt_hardfork m' = mt_hardfork m
  | McConfig c => mt_config m' = Some (encode_config hf c) /\ mt_segment m' = mt_segment m /\ mt_inner m' = mt_inner m /\ mt_ckb m' = mt_ckb m /\ mt_hardfork m' = mt_hardfork m
  end.
(** everything except the propose counters and the hardfork history *)
Definition same_terms (m m' : meta) : Prop :=
  mt_segment m' = mt_segment m /\ mt_config m' = mt_config m /\ mt_ckb m' = mt_ckb m /\
  forall e, option_map (fun i => (mi_start i, mi_end i, mi_epoch i, mi_verifiers i)) (mt_inner m' !! e)
          = option_map (fun i => (mi_start i, mi_end i, mi_epoch i, mi_verifiers i)) (mt_inner m !! e).

Lemma is_validator_iff m n a : is_validator m n a = Ok true <-> validator_at m n a.
Proof.
  unfold is_validator, validator_at. destruct (metadata_by_block m n) as [md| |]; [|split; [done|by intros (? & ? & ? & _)]|split; [done|by intros (? & ? & ? & _)]].
  split.
  - intros [= H]. apply existsb_exists in H as (v & V & E). apply elem_of_list_In in V. apply beqb_eq in E. by exists md, v.
  - intros (md' & v & [= <-] & V & E). f_equal. apply existsb_exists. exists v. split; [by apply elem_of_list_In|by apply beqb_eq].
Qed.
Lemma metadata_no_panic m n : mreach m -> metadata_by_block m n <> Panic.
Proof.
  intros R. pose proof (mreach_inv _ R) as I. unfold metadata_by_block.
  assert (G : forall e, get_metadata m e <> Panic).
  { intros e. unfold get_metadata, get_metadata_inner. destruct (mt_inner m !! e) as [i|] eqn:L; [|done]. destruct (inner_config _ _ _ I L) as [c ->]. done. }
  destruct (n =? 0); [apply G|]. destruct (get_epoch_number _ _); [apply G|done].
Qed.

Section Props.
  Variable keccak : bytes -> bytes.
  Variable meta_abi : bytes -> option meta_call.
  Context {hdr : Type} (hdr_hash : hdr -> bytes) (henc : hdr -> bytes).
  Variable ckb_abi image_abi : bytes -> option (@cell_call hdr).
  Variable evm : xstate -> N -> stx -> evm_out.
  Notation exec_tx := (exec_tx keccak meta_abi hdr_hash henc ckb_abi image_abi).
  Notation exec_block := (exec_block keccak meta_abi hdr_hash henc ckb_abi image_abi evm).
  Notation run := (run keccak meta_abi hdr_hash henc ckb_abi image_abi evm).
  Notation number s := (c_number (xs_ctx s)).

  (** the state in which the contract runs *)
  Definition entered (s : xstate) (t : stx) : xstate :=
    XState (xs_acc s) (xs_code s) (xs_logs s) (XCtx (number s) (s_sender t) (price_of t) (c_extra (xs_ctx s))) (xs_meta s) (xs_cells s) (xs_hf s).
  Lemma exec_tx_metadata limit s t : to_system 1 t -> exec_tx evm limit s t =
    match metadata_exec keccak meta_abi (entered s t) t with
    | Ok (s', x) => Ok (set_logs s' [], TxResp_ (x_exit x) (x_ret x) (x_gas_used x) (x_remain_gas x) (x_fee_cost x) (xs_logs s') (x_code_address x) (x_removed x))
    | _ => Panic
    end.
  Proof using. intros T. apply to_iff in T. unfold ExecModel.exec_tx, ExecModel.dispatch. rewrite T. reflexivity. Qed.

  (** After genesis the metadata changes only by a successful call of the metadata contract by a validator of the current epoch,
      and only as the call says. *)
  Theorem C70_only_validators : forall limit s t s' r, exec_tx evm limit s t = Ok (s', r) -> number s <> 0 ->
    xs_meta s' <> xs_meta s ->
    to_system 1 t /\ validator_at (xs_meta s) (number s) (s_sender t) /\ is_succeed (x_exit r) = true /\
    exists c, meta_abi (tx_data (unsigned_of t)) = Some c /\ call_effect (xs_hf s) (xs_meta s) c (xs_meta s').
  Proof using.
    intros limit s t s' r E NZ CH. destruct (C27_effects _ _ _ _ _ _ _ _ _ _ _ _ E) as [[?|T] _]; [done|]. split; [exact T|].
    rewrite exec_tx_metadata in E by done.
    destruct (metadata_exec _ _ _ _) as [[s1 x]| |] eqn:ME; [|done|done]. injection E as <- <-. unfold set_logs in CH |- *. cbn [xs_meta x_exit] in CH |- *.
    assert (RV : forall g, reverting (entered s t) g = Ok (s1, x) -> xs_meta s1 = xs_meta s).
    { intros g. unfold reverting, revert_resp. destruct (g =? 0); [done|]. by intros [= <- <-]. }
    unfold metadata_exec in ME. cbn zeta in ME. change (number (entered s t)) with (number s) in ME. change (xs_meta (entered s t)) with (xs_meta s) in ME.
    change (xs_hf (entered s t)) with (xs_hf s) in ME. rewrite (proj2 (N.eqb_neq _ 0) NZ) in ME.
    destruct (is_validator (xs_meta s) (number s) (s_sender t)) as [[|]| |] eqn:IV; [|by apply RV in ME|by apply RV in ME|done].
    apply is_validator_iff in IV. split; [done|].
    destruct (meta_abi _) as [c|] eqn:AB; [|by apply RV in ME].
    match type of ME with context [match ?q with Ok _ => _ | Err => _ | Panic => _ end] => destruct q as [m| |] eqn:ML end; [|by apply RV in ME|done].
    destruct (update_states keccak _ _ _) as [s2| |] eqn:U; try done. injection ME as <- <-.
    apply update_states_rest in U. rewrite U. unfold set_meta. cbn [xs_meta]. split; [done|]. exists c. split; [done|].
    destruct c; [exact ML|injection ML as <-|injection ML as <-]; cbn; done.
  Qed.

  (** A call by anyone else is refused and changes nothing but the logs. *)
  Theorem C70_refused : forall limit s t, to_system 1 t -> number s <> 0 -> mreach (xs_meta s) -> limit_of t <> 0 ->
    ~ validator_at (xs_meta s) (number s) (s_sender t) ->
    exists s' r, exec_tx evm limit s t = Ok (s', r) /\ is_succeed (x_exit r) = false /\
      xs_meta s' = xs_meta s /\ xs_acc s' = xs_acc s /\ xs_code s' = xs_code s /\ xs_cells s' = xs_cells s.
  Proof using.
    intros limit s t T NZ R G NV. rewrite exec_tx_metadata by done. unfold metadata_exec. cbn zeta.
    change (number (entered s t)) with (number s). change (xs_meta (entered s t)) with (xs_meta s). rewrite (proj2 (N.eqb_neq _ 0) NZ).
    assert (RV : reverting (entered s t) (gas_limit (unsigned_of t)) =
      Ok (entered s t, TxResp_ (XRevert 0) [] (gas_limit (unsigned_of t) - 1) 1 1 [] None false)).
    { unfold reverting, revert_resp. unfold limit_of in G. by rewrite (proj2 (N.eqb_neq _ 0) G). }
    destruct (is_validator (xs_meta s) (number s) (s_sender t)) as [[|]| |] eqn:IV.
    - by apply is_validator_iff in IV.
    - rewrite RV. eexists _, _. split; [reflexivity|]. done.
    - rewrite RV. eexists _, _. split; [reflexivity|]. done.
    - unfold is_validator in IV. pose proof (metadata_no_panic (xs_meta s) (number s) R). by destruct (metadata_by_block _ _).
  Qed.

  (** A validator's call takes effect (in the genesis block, anyone's). *)
  Theorem C70_validator_call : forall limit s t c m, to_system 1 t ->
    number s = 0 \/ validator_at (xs_meta s) (number s) (s_sender t) ->
    meta_abi (tx_data (unsigned_of t)) = Some c -> nonce_of s (s_sender t) + 1 < 2 ^ 256 ->
    (forall md, c = McAppend md -> append_metadata (xs_hf s) (xs_meta s) md = Ok m) ->
    exists s' r, exec_tx evm limit s t = Ok (s', r) /\ is_succeed (x_exit r) = true /\
      call_effect (xs_hf s) (xs_meta s) c (xs_meta s').
  Proof using.
    intros limit s t c m T V AB NO AP. rewrite exec_tx_metadata by done. unfold metadata_exec. cbn zeta.
    change (number (entered s t)) with (number s). change (xs_meta (entered s t)) with (xs_meta s). change (xs_hf (entered s t)) with (xs_hf s).
    assert (AL : (if number s =? 0 then Ok true else is_validator (xs_meta s) (number s) (s_sender t)) = Ok true).
    { destruct (N.eqb_spec (number s) 0); [done|]. destruct V as [?|V]; [done|]. by apply is_validator_iff. }
    rewrite AL, AB.
    assert (U : forall m', exists s2, update_states keccak (set_meta (entered s t) m') (s_sender t) [METADATA] = Ok s2).
    { intros m'. unfold update_states. change (a_nonce (get_account (xs_acc (set_meta (entered s t) m')) (s_sender t))) with (nonce_of s (s_sender t)).
      destruct (N.leb_spec U256_MOD (nonce_of s (s_sender t) + 1)) as [L|L]; [unfold U256_MOD in L; lia|]. eauto. }
    destruct c as [md|i|cf].
    - rewrite (AP md eq_refl). destruct (U m) as [s2 E2]. rewrite E2. eexists _, _. split; [reflexivity|]. split; [done|].
      unfold set_logs. cbn [xs_meta call_effect]. apply update_states_rest in E2. rewrite E2. by apply AP.
    - match goal with |- context [set_meta (entered s t) ?q] => destruct (U q) as [s2 E2] end. rewrite E2. eexists _, _. split; [reflexivity|]. split; [done|].
      unfold set_logs. cbn [xs_meta call_effect]. apply update_states_rest in E2. rewrite E2. done.
    - match goal with |- context [set_meta (entered s t) ?q] => destruct (U q) as [s2 E2] end. rewrite E2. eexists _, _. split; [reflexivity|]. split; [done|].
      unfold set_logs. cbn [xs_meta call_effect]. apply update_states_rest in E2. rewrite E2. done.
  Qed.

  (** In a block without such a call by a validator, epochs, validators and configuration stay as they were. *)
  Lemma run_unchanged limit s txs s' rs : run limit s txs s' rs -> number s <> 0 ->
    (forall t, t ∈ txs -> to_system 1 t -> ~ validator_at (xs_meta s) (number s) (s_sender t)) -> xs_meta s' = xs_meta s.
  Proof using.
    intros R. induction R as [|s t s1 r txs s2 rs E R IH]; [done|]. intros NZ NV.
    assert (E1 : xs_meta s1 = xs_meta s).
    { destruct (C27_effects _ _ _ _ _ _ _ _ _ _ _ _ E) as [[?|T] _]; [done|].
      destruct (is_validator (xs_meta s) (number s) (s_sender t)) as [[|]| |] eqn:IV.
      1: { apply is_validator_iff in IV. exfalso. apply (NV t); [apply elem_of_cons; by left|done|done]. }
      all: rewrite exec_tx_metadata in E by done; destruct (metadata_exec _ _ _ _) as [[s3 x]| |] eqn:ME; try done; injection E as <- <-;
        unfold metadata_exec in ME; cbn zeta in ME; change (number (entered s t)) with (number s) in ME; change (xs_meta (entered s t)) with (xs_meta s) in ME;
        rewrite (proj2 (N.eqb_neq _ 0) NZ), IV in ME; try done; unfold reverting, revert_resp in ME; destruct (gas_limit _ =? 0); try done; by injection ME as <- <-. }
    assert (N1 : number s1 = number s).
    { destruct (run_ctx _ _ _ _ _ _ _ _ _ _ _ _ (run_cons _ _ _ _ _ _ _ limit s t s1 r [] s1 [] E (run_nil _ _ _ _ _ _ _ _ _))) as [H _]. exact H. }
    rewrite IH, E1; [done|congruence|]. intros u U T. rewrite E1, N1. apply NV; [apply elem_of_cons; by right|done].
  Qed.
  Theorem C70_block : forall s txs vals s' gas rs, exec_block s txs vals = Ok (s', gas, rs) -> mreach (xs_meta s) -> number s <> 0 ->
    (forall t, t ∈ txs -> to_system 1 t -> ~ validator_at (xs_meta s) (number s) (s_sender t)) ->
    same_terms (xs_meta s) (xs_meta s').
  Proof using.
    intros s txs vals s' gas rs E M NZ NV.
    apply exec_block_inv in E as (limit & s1 & f & l & m & mm & hf & _ & R & _ & _ & _ & _ & _ & _ & MA & _ & MM & _).
    rewrite (run_unchanged _ _ _ _ _ R NZ NV) in MA. apply after_block_inv in MA as (m1 & H & U & _); [|done].
    assert (S12 : mt_segment m1 = mt_segment (xs_meta s) /\ mt_inner m1 = mt_inner (xs_meta s) /\ mt_config m1 = mt_config (xs_meta s) /\ mt_ckb m1 = mt_ckb (xs_meta s)).
    { by destruct H as [->|(b & fl & ->)]. }
    destruct S12 as (S1 & S2 & S3 & S4). apply count_inv in U as (e & i & c & G & L & B & ->). rewrite MM. rewrite S1, S2 in *.
    pose proof (mi_ent _ (mreach_inv _ M) _ _ L) as (EI & _).
    split; [done|]. split; [done|]. split; [done|]. cbn [mt_inner]. intros e'. rewrite EI.
    destruct (decide (e = e')) as [<-|N]; [rewrite lookup_insert, L; cbn; by rewrite EI|by rewrite lookup_insert_ne].
  Qed.

  (** Beyond the last epoch nobody can append another one: every call is refused, and the block itself cannot be executed. *)
  Theorem C70_after_last_epoch : forall limit s t s' r, mreach (xs_meta s) -> seg_last (mt_segment (xs_meta s)) < number s ->
    exec_tx evm limit s t = Ok (s', r) -> xs_meta s' = xs_meta s /\ forall txs vals o, exec_block s txs vals <> Ok o.
  Proof using.
    intros limit s t s' r M LT E. pose proof (mreach_inv _ M) as I.
    assert (NZ : number s <> 0) by lia.
    assert (GE : get_epoch_number (mt_segment (xs_meta s)) (number s) = None).
    { destruct (get_epoch_number _ (number s)) as [e|] eqn:G; [|done].
      apply epoch_number_iff in G as (a & b & A & B & H); [|apply I]. pose proof (seg_inc_last _ _ _ (mi_inc _ I) B). lia. }
    assert (NV : forall a, ~ validator_at (xs_meta s) (number s) a).
    { intros a (md & v & H & _). unfold metadata_by_block in H. by rewrite (proj2 (N.eqb_neq _ 0) NZ), GE in H. }
    split.
    - apply (run_unchanged limit s [t] s' [r]); [econstructor; [exact E|constructor]|done|]. intros u _ _. apply NV.
    - intros txs vals [[s2 gas] rs] X.
      apply exec_block_inv in X as (limit' & s1 & f & l & m & mm & hf & _ & R & _ & _ & _ & _ & _ & _ & MA & _ & MM & _).
      rewrite (run_unchanged _ _ _ _ _ R NZ) in MA by (intros u _ _; apply NV).
      apply after_block_inv in MA as (m1 & H & U & _); [|done]. apply count_inv in U as (e & i & c & G & _).
      assert (S1 : mt_segment m1 = mt_segment (xs_meta s)) by (by destruct H as [->|(b & fl & ->)]). rewrite S1, GE in G. done.
  Qed.
End Props.

(** Non-vacuity: in block 120 a validator sets the CKB information, an outsider is refused, and a block beyond the last epoch (151) is stuck. *)
Definition gov_abi (d : bytes) : option meta_call := match d with [7; x] => Some (McCkb [x]) | _ => None end.
Notation gov_tx := (exec_tx ex_keccak gov_abi (fun _ : unit => []) (fun _ => []) ex_cell_abi ex_cell_abi ex_evm).
Notation gov_block := (exec_block ex_keccak gov_abi (fun _ : unit => []) (fun _ => []) ex_cell_abi ex_cell_abi ex_evm).
Definition gov_call (sender : bytes) : stx := ex_tx 1 100 (sys 1) 0 [7; 42] sender.
Example C70_example :
  validator_at ex_meta 120 (repeat 2 20) /\ ~ validator_at ex_meta 120 alice /\ mreach ex_meta /\
  (exists s' r, gov_tx 0 (ex_state 120 []) (gov_call (repeat 2 20)) = Ok (s', r) /\ mt_ckb (xs_meta s') = Some [42]) /\
  (exists s' r, gov_tx 0 (ex_state 120 []) (gov_call alice) = Ok (s', r) /\ mt_ckb (xs_meta s') = None) /\
  (exists s' gas rs, gov_block (ex_state 120 []) [gov_call alice] [] = Ok (s', gas, rs)) /\
  seg_last (mt_segment ex_meta) < 152 /\ (exists s' r, gov_tx 0 (ex_state 152 []) (gov_call (repeat 2 20)) = Ok (s', r)).
Proof.
  split; [apply is_validator_iff; vm_compute; reflexivity|].
  split; [rewrite <- is_validator_iff; intros H; vm_compute in H; discriminate H|].
  split; [exact (mtrace_reach _ _ ex_trace)|].
  split; [compute_tx|]. split; [compute_tx|]. split; [|split; [vm_compute; reflexivity|]].
  - destruct (gov_block (ex_state 120 []) [gov_call alice] []) as [[[s' g] rs]| |] eqn:E; [by exists s', g, rs| |]; exfalso; revert E; vm_compute; discriminate.
  - destruct (gov_tx 0 (ex_state 152 []) (gov_call (repeat 2 20))) as [[s' r]| |] eqn:E; [by exists s', r| |]; exfalso; revert E; vm_compute; discriminate.
Qed.

Print Assumptions C70_only_validators.
Print Assumptions C70_refused.
Print Assumptions C70_validator_call.
Print Assumptions C70_block.
Print Assumptions C70_after_last_epoch.
