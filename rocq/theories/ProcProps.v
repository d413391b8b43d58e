(** C107: what a block does depends on the state of its parent and on the block, not on the process that executes it. *)
From Verif Require Import Bytes BytesProofs Rlp TxModel BlockModel MempoolModel CellModel MetaModel MetaProofs MetaProps
  ExecModel ExecProofs ExecProps HardforkModel ProcModel.
From stdpp Require Import base gmap list.
From Coq Require Import Lia.
Local Open Scope N_scope.

Section Props.
  Variable keccak : bytes -> bytes.
  Variable meta_abi : bytes -> option meta_call.
  Context {hdr : Type} (hdr_hash : hdr -> bytes) (henc : hdr -> bytes).
  Variable ckb_abi image_abi : bytes -> option (@cell_call hdr).
  Variable evm : xstate -> N -> stx -> evm_out.
  Notation dispatch := (dispatch keccak meta_abi hdr_hash henc ckb_abi image_abi).
  Notation exec_tx := (exec_tx keccak meta_abi hdr_hash henc ckb_abi image_abi evm).
  Notation exec_loop := (exec_loop keccak meta_abi hdr_hash henc ckb_abi image_abi evm).
  Notation exec_block := (exec_block keccak meta_abi hdr_hash henc ckb_abi image_abi evm).
  Notation lexec_tx := (lexec_tx keccak meta_abi hdr_hash henc ckb_abi image_abi evm).
  Notation lexec_loop := (lexec_loop keccak meta_abi hdr_hash henc ckb_abi image_abi evm).
  Notation lexec := (lexec keccak meta_abi hdr_hash henc ckb_abi image_abi evm).
  Notation adapter_exec := (adapter_exec keccak meta_abi hdr_hash henc ckb_abi image_abi evm).
  Notation pstep := (pstep keccak meta_abi hdr_hash henc ckb_abi image_abi evm).
  Notation prun := (prun keccak meta_abi hdr_hash henc ckb_abi image_abi evm).

  (* ---------------------------------------------------------------------- *)
  (** * Specification: no process, no threads, one root per contract *)

  (** The flags in force at a number, in a state. *)
  Definition flags (p : pstate) (n : N) : N := hardfork_info (p_meta p) n.

  (** Block [number] on top of the state [p], with the executor of C21-C27 and the flags of the parent. *)
  Definition next (p : pstate) (number : N) (b : pblock) : option (pstate * (N * list tx_resp)) :=
    match metadata_by_block (p_meta p) number with
    | Ok md =>
        match exec_block (XState (p_acc p) (p_code p) [] (XCtx number (pb_proposer b) 1 (pb_extra b)) (p_meta p) (p_cells p)
                            (flags p (number - 1))) (pb_txs b) (mi_verifiers (md_inner md)) with
        | Ok (s, gas, rs) => Some (PState (xs_acc s) (xs_code s) (xs_meta s) (xs_cells s), (gas, rs))
        | _ => None
        end
    | _ => None
    end.

  (** Several blocks; states and answers newest first. *)
  Fixpoint chain (c : list pstate) (a : list (N * list tx_resp)) (bs : list pblock) : option (list pstate * list (N * list tx_resp)) :=
    match bs with
    | [] => Some (c, a)
    | b :: r =>
        match c with
        | p :: _ => match next p (N.of_nat (length c)) b with
                    | Some (p', x) => chain (p' :: c) (x :: a) r
                    | None => None
                    end
        | [] => None
        end
    end.

  (** the blocks that were stored *)
  Fixpoint stored (es : list pevent) : list pblock :=
    match es with [] => [] | ECommit _ b :: r => b :: stored r | _ :: r => stored r end.

  (** The announcement that a block carries, added to the list in the state. *)
  Definition announce (p : pstate) (b : pblock) : meta :=
    match pb_extra b with
    | t :: _ => match dec_hardfork t with Some (n, f) => set_hardfork_info (p_meta p) n f | None => p_meta p end
    | [] => p_meta p
    end.
  (** The flags change with this block. *)
  Definition activates (p : pstate) (number : N) (b : pblock) : bool :=
    negb (hardfork_info (announce p b) number =? flags p (number - 1)).

  (** No block is stored after the execution of an activation block was thrown away, unless the process is started again
      (or another block was executed meanwhile and thrown away). *)
  Fixpoint orderly (c : list pstate) (clean : bool) (es : list pevent) : Prop :=
    match es with
    | [] => True
    | ECommit _ b :: r =>
        clean = true /\
        match c with
        | p :: _ => forall p' x, next p (N.of_nat (length c)) b = Some (p', x) -> orderly (p' :: c) true r
        | [] => True
        end
    | EReject _ b :: r =>
        match c with p :: _ => orderly c (negb (activates p (N.of_nat (length c)) b)) r | [] => True end
    | ECall _ _ :: r => orderly c clean r
    | ERestart :: r => orderly c true r
    end.

  (* ---------------------------------------------------------------------- *)
  (** * The two cells and the two slots agree *)

  Definition synced (l : lstate) : Prop := lv_meta l = xs_meta (lv_x l) /\ lv_cells l = xs_cells (lv_x l).
  Definition lift (s : xstate) : lstate := LState s (xs_meta s) (xs_cells s).

  Lemma update_rest s a l s' : update_states keccak s a l = Ok s' -> xs_meta s' = xs_meta s /\ xs_cells s' = xs_cells s.
  Proof.
    unfold update_states. destruct (_ <=? _); [done|]. intros [= <-].
    pose proof (apply_ops_rest keccak s (map (touch s) l ++ [AModify a (a_nonce (get_account (xs_acc s) a) + 1) (a_balance (get_account (xs_acc s) a)) None [] false]) [] false) as (_ & A & B & _).
    done.
  Qed.

  Lemma reverting_inv s gl s' x : reverting s gl = Ok (s', x) -> s' = s /\ is_succeed (x_exit x) = false.
  Proof. unfold reverting, revert_resp. destruct (gl =? 0); [done|]. by intros [= <- <-]. Qed.

  Lemma native_rest s t s' x : native_exec keccak s t = Ok (s', x) -> xs_meta s' = xs_meta s /\ xs_cells s' = xs_cells s.
  Proof.
    unfold native_exec. destruct (tx_data (unsigned_of t)) as [|d rest]; [intros [-> _]%reverting_inv; done|].
    destruct (_ || _); [intros [-> _]%reverting_inv; done|].
    assert (F : forall b o, (if U256_MOD <=? a_nonce (get_account (xs_acc s) (firstn 20 rest)) + 1 then Panic
        else Ok (apply_ops keccak s [AModify (firstn 20 rest) (a_nonce (get_account (xs_acc s) (firstn 20 rest)) + 1) b None [] false] [] false, o)) = Ok (s', x) ->
        xs_meta s' = xs_meta s /\ xs_cells s' = xs_cells s).
    { intros b o. destruct (_ <=? _); [done|]. intros [= <- <-]. split; apply apply_ops_rest. }
    cbn zeta. destruct (d =? 0).
    - destruct (U256_MOD <=? a_balance _ + tx_value _); [done|]. apply F.
    - destruct (a_balance _ <? tx_value _); [intros [-> _]%reverting_inv; done|]. apply F.
  Qed.

  Lemma metadata_rest s t s' x : metadata_exec keccak meta_abi s t = Ok (s', x) ->
    xs_cells s' = xs_cells s /\ (is_succeed (x_exit x) = false -> xs_meta s' = xs_meta s).
  Proof.
    unfold metadata_exec. cbn zeta.
    match goal with |- match ?o with Ok _ => _ | Err => _ | Panic => _ end = _ -> _ => destruct o as [[]| |] end; try done; try (intros [-> _]%reverting_inv; done).
    match goal with |- match ?o with Ok _ => _ | Err => _ | Panic => _ end = _ -> _ => destruct o as [m| |] end; try done; try (intros [-> _]%reverting_inv; done).
    destruct (update_states _ _ _ _) as [s1| |] eqn:U; try done. intros [= <- <-].
    apply update_rest in U as [A B]. done.
  Qed.

  Lemma cells_rest abi s t s' x : cells_exec keccak hdr_hash henc abi s t = Ok (s', x) ->
    xs_meta s' = xs_meta s /\ (is_succeed (x_exit x) = false -> xs_cells s' = xs_cells s).
  Proof.
    unfold cells_exec. destruct (cell_exec _ _ _ _) as [c []]; [|intros [-> _]%reverting_inv; done].
    destruct (update_states _ _ _ _) as [s1| |] eqn:U; try done. intros [= <- <-].
    apply update_rest in U as [A B]. done.
  Qed.

  Lemma evm_rest limit s t s' x : evm_exec keccak evm limit s t = Ok (s', x) -> xs_meta s' = xs_meta s /\ xs_cells s' = xs_cells s.
  Proof.
    unfold evm_exec. cbn zeta. match goal with |- context [evm ?y limit t] => set (s1 := y) end.
    destruct (_ <=? _); [done|]. intros [= <- <-].
    pose proof (apply_ops_rest keccak s1 (eo_values (evm s1 limit t)) (eo_logs (evm s1 limit t)) true) as (_ & A & B & _).
    unfold save_account, set_acc. cbn [xs_meta xs_cells]. destruct (is_succeed _); rewrite ?A, ?B; done.
  Qed.

  Lemma tx_refines limit s t : lexec_tx limit (lift s) t =
    match exec_tx limit s t with Ok (s', x) => Ok (lift s', x) | _ => Panic end.
  Proof.
    unfold ProcModel.lexec_tx, ExecModel.exec_tx. cbn [lift lv_x lv_meta lv_cells].
    match goal with |- context [dispatch ?y t] => set (s0 := y) end.
    assert (M0 : xs_meta s0 = xs_meta s) by done. assert (C0 : xs_cells s0 = xs_cells s) by done.
    destruct (dispatch s0 t) as [[[s' x]| |]|] eqn:D; try done.
    - unfold write_slots_of, lift. f_equal. f_equal. unfold ExecModel.dispatch in D.
      destruct (tx_to (unsigned_of t)) as [a|]; [|done]. cbn [set_logs xs_meta xs_cells].
      destruct (beqb_spec a NATIVE) as [E|_].
      { subst a. injection D as D. apply native_rest in D as [A B]. rewrite A, B, M0, C0.
        replace (beqb NATIVE METADATA) with false by (vm_compute; reflexivity).
        replace (beqb NATIVE CKB) with false by (vm_compute; reflexivity).
        replace (beqb NATIVE IMAGE) with false by (vm_compute; reflexivity).
        by rewrite !andb_false_r. }
      destruct (beqb_spec a METADATA) as [E|NM].
      { subst a. injection D as D. apply metadata_rest in D as [A B].
        replace (beqb METADATA CKB) with false by (vm_compute; reflexivity).
        replace (beqb METADATA IMAGE) with false by (vm_compute; reflexivity).
        destruct (is_succeed (x_exit x)); cbn [andb orb]; rewrite A, C0; [done|]. by rewrite (B eq_refl), M0. }
      rewrite andb_false_r. destruct (beqb_spec a CKB) as [E|NC].
      { subst a. injection D as D. apply cells_rest in D as [A B].
        destruct (is_succeed (x_exit x)); cbn [andb orb]; rewrite A, M0; [done|]. by rewrite (B eq_refl), C0. }
      destruct (beqb_spec a IMAGE) as [E|NI]; [|done].
      injection D as D. apply cells_rest in D as [A B].
      destruct (is_succeed (x_exit x)); cbn [andb orb]; rewrite A, M0; [done|]. by rewrite (B eq_refl), C0.
    - destruct (evm_exec keccak evm limit s0 t) as [[s' x]| |] eqn:V; try done.
      apply evm_rest in V as [A B]. unfold write_slots_of, lift. cbn [set_logs xs_meta xs_cells].
      rewrite A, B, M0, C0. by destruct (tx_to _).
  Qed.

  Lemma loop_refines limit txs : forall s gas fee, lexec_loop limit (lift s) txs gas fee =
    match exec_loop limit s txs gas fee with Ok (s', xs, g, f) => Ok (lift s', xs, g, f) | _ => Panic end.
  Proof.
    induction txs as [|t r IH]; intros s gas fee; [done|]. cbn [ProcModel.lexec_loop ExecModel.exec_loop].
    rewrite tx_refines. destruct (exec_tx limit s t) as [[s' x]| |]; try done.
    destruct (_ <? _); [done|]. rewrite IH. by destruct (exec_loop _ _ _ _ _) as [[[[sf xs] g] f]| |].
  Qed.

  (** Whatever the thread had in its cells, executing a block is the execution of C21-C27 on the state, and the slots
      end with what the contracts wrote. *)
  Theorem C107_refines : forall hf tl p number b vals,
    lexec hf tl p number b vals =
    match exec_block (XState (p_acc p) (p_code p) [] (XCtx number (pb_proposer b) 1 (pb_extra b)) (p_meta p) (p_cells p) hf)
            (pb_txs b) vals with
    | Ok (s, gas, rs) => Ok (PState (xs_acc s) (xs_code s) (xs_meta s) (xs_cells s), (gas, rs), (xs_meta s, xs_cells s), xs_hf s)
    | _ => Panic
    end.
  Proof using.
    intros hf tl p number b vals. unfold ProcModel.lexec, ExecModel.exec_block, init_locals, block_ctx. cbn [fst snd xs_ctx c_number].
    match goal with |- context [contract_limit ?y] => set (s := y) end.
    destruct (contract_limit s) as [limit| |]; try done.
    change (LState s (p_meta p) (p_cells p)) with (lift s). rewrite loop_refines.
    destruct (exec_loop limit s (pb_txs b) 0 0) as [[[[s1 rs] gas] fee]| |]; try done. cbn [lift lv_x lv_meta lv_cells].
    destruct (if number =? 0 then _ else _) as [al| |]; try done.
    destruct (credit _ _) as [m| |]; try done.
    unfold set_acc at 1 2 3 4. cbn [xs_meta xs_hf xs_ctx].
    unfold meta_after_block. cbn [set_acc xs_meta xs_hf xs_ctx].
    destruct (number =? 0) eqn:Z; [done|].
    destruct (update_propose_count _ _ _) as [m2| |]; try done.
    match goal with |- context [apply_ops keccak ?y _ [] false] => set (s3 := y) end.
    pose proof (apply_ops_rest keccak s3 [touch s3 METADATA] [] false) as (A & B & C & D).
    rewrite B, C, D. done.
  Qed.

  (* ---------------------------------------------------------------------- *)
  (** * Flags *)

  Definition hl (m : meta) : list (N * N) := default [] (mt_hardfork m).
  Lemma info_hl m n : hardfork_info m n = hf_at (hl m) n.
  Proof. unfold hardfork_info, hl. by destruct (mt_hardfork m). Qed.

  (** What the transactions of a block do to the metadata: the list of hardforks stays, and a configuration is written in the
      form that the flags of the process ask for. *)
  Definition kept (hf : N) (m m' : meta) : Prop :=
    mt_hardfork m' = mt_hardfork m /\
    (mt_config m' = mt_config m \/ exists c, mt_config m' = Some (encode_config hf c)).
  Lemma kept_refl hf m : kept hf m m. Proof. split; [done|by left]. Qed.
  Lemma kept_trans hf a b c : kept hf a b -> kept hf b c -> kept hf a c.
  Proof.
    intros [A1 A2] [B1 B2]. split; [congruence|]. destruct B2 as [B2|B2]; [|by right].
    rewrite B2. destruct A2 as [A2|A2]; [by left|by right].
  Qed.

  Lemma metadata_kept s t s' x : metadata_exec keccak meta_abi s t = Ok (s', x) -> kept (xs_hf s) (xs_meta s) (xs_meta s').
  Proof.
    unfold metadata_exec. cbn zeta.
    match goal with |- match ?o with Ok _ => _ | Err => _ | Panic => _ end = _ -> _ => destruct o as [[]| |] end; try done;
      try (intros [-> _]%reverting_inv; apply kept_refl).
    match goal with |- match ?o with Ok _ => _ | Err => _ | Panic => _ end = _ -> _ => destruct o as [m| |] eqn:R end; try done;
      try (intros [-> _]%reverting_inv; apply kept_refl).
    destruct (update_states _ _ _ _) as [s1| |] eqn:U; try done. intros [= <- <-].
    apply update_rest in U as [A _]. rewrite A. cbn [set_meta xs_meta].
    destruct (meta_abi _) as [[md|i|c]|]; try done.
    - apply append_inv in R as (_ & _ & _ & _ & ->). split; [done|]. right. by eexists.
    - injection R as <-. split; [done|]. by left.
    - injection R as <-. split; [done|]. right. by eexists.
  Qed.

  Lemma tx_kept limit s t s' x : exec_tx limit s t = Ok (s', x) -> kept (xs_hf s) (xs_meta s) (xs_meta s').
  Proof.
    unfold ExecModel.exec_tx. match goal with |- context [dispatch ?y t] => set (s0 := y) end.
    destruct (match dispatch s0 t with Some r => r | None => evm_exec keccak evm limit s0 t end) as [[s1 y]| |] eqn:D; try done.
    intros [= <- <-]. cbn [set_logs xs_meta]. change (xs_hf s) with (xs_hf s0). change (xs_meta s) with (xs_meta s0).
    destruct (dispatch s0 t) as [r|] eqn:DD.
    - subst r. unfold ExecModel.dispatch in DD. destruct (tx_to _) as [a|]; [|done].
      destruct (beqb a NATIVE); [injection DD as DD; apply native_rest in DD as [-> _]; apply kept_refl|].
      destruct (beqb a METADATA); [injection DD as DD; by apply metadata_kept in DD|].
      destruct (beqb a CKB); [injection DD as DD; apply cells_rest in DD as [-> _]; apply kept_refl|].
      destruct (beqb a IMAGE); [injection DD as DD; apply cells_rest in DD as [-> _]; apply kept_refl|]. done.
    - apply evm_rest in D as [-> _]. apply kept_refl.
  Qed.

  Lemma run_kept limit s txs s' rs : ExecProps.run keccak meta_abi hdr_hash henc ckb_abi image_abi evm limit s txs s' rs ->
    kept (xs_hf s) (xs_meta s) (xs_meta s').
  Proof.
    induction 1 as [|s t s1 r txs s2 rs E R IH]; [apply kept_refl|].
    assert (H : xs_hf s1 = xs_hf s).
    { pose proof (run_ctx _ _ _ _ _ _ _ _ _ _ _ _ (run_cons _ _ _ _ _ _ _ _ s t s1 r [] s1 [] E (run_nil _ _ _ _ _ _ _ _ s1))) as (_ & _ & H & _). exact H. }
    rewrite H in IH. eapply kept_trans; [|exact IH]. by eapply tx_kept.
  Qed.

  (** the flags and the list after a block *)
  Lemma block_flags hf p number b vals s gas rs : number <> 0 ->
    exec_block (XState (p_acc p) (p_code p) [] (XCtx number (pb_proposer b) 1 (pb_extra b)) (p_meta p) (p_cells p) hf)
      (pb_txs b) vals = Ok (s, gas, rs) ->
    mt_hardfork (xs_meta s) = mt_hardfork (announce p b) /\ xs_hf s = hardfork_info (announce p b) number /\
    (mt_config (xs_meta s) = mt_config (p_meta p) \/ exists c, mt_config (xs_meta s) = Some (encode_config hf c)).
  Proof.
    intros NZ E.
    apply exec_block_inv in E as (limit & s1 & fee & l & m & mm & hf' & _ & R & _ & _ & _ & _ & _ & _ & MA & _ & -> & ->).
    apply run_kept in R as [K1 K2]. cbn [xs_meta xs_hf xs_ctx c_number c_extra] in *.
    unfold meta_after_block in MA. rewrite (proj2 (N.eqb_neq _ 0) NZ) in MA.
    match type of MA with context [update_propose_count ?x _ _] => set (m1 := x) in * end.
    destruct (update_propose_count m1 _ _) as [m2| |] eqn:U; try done. injection MA as <- <-.
    apply count_inv in U as (e & i & c & _ & _ & _ & ->). cbn [mt_hardfork mt_config].
    assert (H1 : mt_hardfork m1 = mt_hardfork (announce p b)).
    { unfold m1, announce. destruct (pb_extra b) as [|t r]; [done|]. destruct (dec_hardfork t) as [[nb f]|]; [|done].
      unfold set_hardfork_info. cbn [mt_hardfork]. by rewrite K1. }
    assert (H2 : mt_config m1 = mt_config (xs_meta s1)).
    { unfold m1. destruct (pb_extra b) as [|t r]; [done|]. by destruct (dec_hardfork t) as [[nb f]|]. }
    split; [done|]. split; [|by rewrite H2]. rewrite !info_hl. unfold hl. by rewrite H1.
  Qed.

  (* ---------------------------------------------------------------------- *)
  (** * C107 *)

  (** The cells of the thread have no influence at all. *)
  Theorem C107_threads : forall hf tl tl' p number b, adapter_exec hf tl p number b = adapter_exec hf tl' p number b.
  Proof using.
    intros hf tl tl' p number b. unfold ProcModel.adapter_exec. destruct (metadata_by_block _ _) as [md| |]; [|done|done].
    by rewrite !C107_refines.
  Qed.

  Lemma exec_flags hf tl p number b p' x tl' hf' : number <> 0 -> adapter_exec hf tl p number b = Ok (p', x, tl', hf') ->
    hf' = hardfork_info (announce p b) number /\ flags p' number = hf' /\ mt_hardfork (p_meta p') = mt_hardfork (announce p b) /\
    (mt_config (p_meta p') = mt_config (p_meta p) \/ exists c, mt_config (p_meta p') = Some (encode_config hf c)).
  Proof.
    intros NZ. unfold ProcModel.adapter_exec. destruct (metadata_by_block _ _) as [md| |]; try done. rewrite C107_refines.
    match goal with |- context [exec_block ?a ?b ?c] => destruct (exec_block a b c) as [[[s gas] rs]| |] eqn:E end; try done.
    apply block_flags in E as (A & B & C); [|done]. intros [= <- <- <- <-]. unfold flags. cbn [p_meta].
    split; [done|]. split; [|done]. rewrite B, !info_hl. unfold hl. by rewrite A.
  Qed.

  Definition clean_node (n : pnode) : Prop :=
    match pn_chain n with
    | p :: _ => pr_hf (pn_proc n) = flags p (N.of_nat (length (pn_chain n)) - 1)
    | [] => False
    end.

  Lemma tip_succ p c : tip_number (p :: c) + 1 = N.of_nat (length (p :: c)).
  Proof. unfold tip_number. cbn [length]. lia. Qed.

  (** In a process whose flags are those of the newest state, storing a block is what the specification says, and it ends
      (with a panic or an error) only when the specification has no result. *)
  Theorem C107_commit : forall n k b p c, pn_chain n = p :: c -> clean_node n ->
    match next p (N.of_nat (length (p :: c))) b with
    | Some (p', x) => exists q, pstep n (ECommit k b) = Some (PNode (p' :: p :: c) (x :: pn_answers n) q) /\
                        clean_node (PNode (p' :: p :: c) (x :: pn_answers n) q)
    | None => pstep n (ECommit k b) = None
    end.
  Proof using.
    intros n k b p c E CL. unfold clean_node in CL. rewrite E in CL. unfold ProcModel.pstep. rewrite E, tip_succ.
    set (number := N.of_nat (length (p :: c))) in *. assert (NZ : number <> 0) by (unfold number; cbn [length]; lia).
    pose proof (exec_flags (pr_hf (pn_proc n)) (locals_of (pn_proc n) k) p number b) as F.
    unfold next. unfold ProcModel.adapter_exec in *. destruct (metadata_by_block (p_meta p) number) as [md| |]; try done.
    rewrite C107_refines in *. rewrite <- CL.
    match goal with |- context [exec_block ?a ?b ?c] => destruct (exec_block a b c) as [[[s gas] rs]| |] eqn:X end; try done.
    eexists. split; [done|]. unfold clean_node. cbn [pn_chain pn_proc pr_hf].
    destruct (F _ _ _ _ NZ eq_refl) as (_ & <- & _). f_equal. cbn [length]. unfold number. cbn [length]. lia.
  Qed.

  Lemma clean_call n k h n' : clean_node n -> pstep n (ECall k h) = Some n' ->
    clean_node n' /\ pn_chain n' = pn_chain n /\ pn_answers n' = pn_answers n /\ pr_hf (pn_proc n') = pr_hf (pn_proc n).
  Proof. intros C. unfold ProcModel.pstep. destruct (state_at _ _); [|done]. by intros [= <-]. Qed.
  Lemma call_keeps n k h n' : pstep n (ECall k h) = Some n' ->
    pn_chain n' = pn_chain n /\ pn_answers n' = pn_answers n /\ pr_hf (pn_proc n') = pr_hf (pn_proc n).
  Proof. unfold ProcModel.pstep. destruct (state_at _ _); [|done]. by intros [= <-]. Qed.

  Lemma restart_clean n n' : pn_chain n <> [] -> pstep n ERestart = Some n' ->
    clean_node n' /\ pn_chain n' = pn_chain n /\ pn_answers n' = pn_answers n.
  Proof.
    unfold ProcModel.pstep. intros NE [= <-]. unfold clean_node, start. cbn [pn_chain pn_proc pn_answers].
    by destruct (pn_chain n) as [|p c].
  Qed.

  Lemma reject_flags n k b n' p c : pn_chain n = p :: c -> pstep n (EReject k b) = Some n' ->
    pn_chain n' = p :: c /\ pn_answers n' = pn_answers n /\
    pr_hf (pn_proc n') = hardfork_info (announce p b) (N.of_nat (length (p :: c))).
  Proof.
    intros E. unfold ProcModel.pstep. rewrite E, tip_succ.
    set (number := N.of_nat (length (p :: c))) in *. assert (NZ : number <> 0) by (unfold number; cbn [length]; lia).
    destruct (adapter_exec _ _ _ _ _) as [[[[p' x] tl] hf]| |] eqn:A; try done. intros [= <-].
    apply exec_flags in A as [-> _]; done.
  Qed.

  Lemma orderly_run es : forall n n' clean, pn_chain n <> [] -> (clean = true -> clean_node n) ->
    orderly (pn_chain n) clean es -> prun n es = Some n' ->
    chain (pn_chain n) (pn_answers n) (stored es) = Some (pn_chain n', pn_answers n').
  Proof.
    induction es as [|e r IH]; intros n n' clean NE CL OR R; [by injection R as ->|].
    cbn [ProcModel.prun] in R. destruct (pstep n e) as [n1|] eqn:S1; [|done].
    destruct (pn_chain n) as [|p c] eqn:EC; [done|]. destruct e as [k b|k b|k h|]; cbn [stored chain orderly] in *.
    - destruct OR as [-> OR]. pose proof (C107_commit n k b p c EC (CL eq_refl)) as H.
      destruct (next p (N.of_nat (length (p :: c))) b) as [[p' x]|] eqn:NX; [|congruence].
      destruct H as (q & H & C'). rewrite H in S1. injection S1 as <-.
      change (chain (p' :: p :: c) (x :: pn_answers n) (stored r)) with
        (chain (pn_chain (PNode (p' :: p :: c) (x :: pn_answers n) q)) (pn_answers (PNode (p' :: p :: c) (x :: pn_answers n) q)) (stored r)).
      eapply (IH _ n' true); [done|done| |exact R]. cbn [pn_chain]. by apply (OR p' x).
    - apply (reject_flags _ _ _ _ _ _ EC) in S1 as (A & B & C). rewrite <- A, <- B.
      eapply (IH n1 n' (negb (activates p (N.of_nat (length (p :: c))) b))); [by rewrite A| |by rewrite A|done].
      unfold clean_node, activates. rewrite A, C. rewrite negb_involutive. intros H%N.eqb_eq. by rewrite H.
    - apply call_keeps in S1 as (A & B & C). rewrite <- EC, <- A, <- B.
      eapply (IH n1 n' clean); [by rewrite A, EC| |by rewrite A, EC|done].
      intros H. specialize (CL H). unfold clean_node in *. by rewrite A, C.
    - apply restart_clean in S1 as (A & B & C); [|by rewrite EC]. rewrite <- EC, <- B, <- C.
      eapply (IH n1 n' true); [by rewrite B, EC|done|by rewrite B, EC|done].
  Qed.

  (** Whatever happened to the node - queries on any thread, executions that were thrown away, restarts at any point - its
      states and answers are those that the stored blocks determine. *)
  Theorem C107_chain : forall c es n, c <> [] -> orderly c true es -> prun (boot c) es = Some n ->
    chain c [] (stored es) = Some (pn_chain n, pn_answers n).
  Proof using.
    intros c es n NE OR R. apply (orderly_run es (boot c) n true); [done| |done|done].
    intros _. unfold clean_node, boot, start. cbn [pn_chain pn_proc]. by destruct c.
  Qed.

  (** Two nodes that stored the same blocks agree. *)
  Theorem C107_agree : forall c es1 es2 n1 n2, c <> [] -> orderly c true es1 -> orderly c true es2 ->
    prun (boot c) es1 = Some n1 -> prun (boot c) es2 = Some n2 -> stored es1 = stored es2 ->
    pn_chain n1 = pn_chain n2 /\ pn_answers n1 = pn_answers n2.
  Proof using.
    intros c es1 es2 n1 n2 NE O1 O2 R1 R2 E. apply C107_chain in R1; [|done..]. apply C107_chain in R2; [|done..].
    rewrite E in R1. rewrite R1 in R2. by injection R2.
  Qed.

  (** Without executions that are thrown away every history is orderly. *)
  Lemma orderly_simple es : (forall k b, ~ In (EReject k b) es) -> forall c, orderly c true es.
  Proof.
    induction es as [|e r IH]; intros H c; [done|].
    assert (H' : forall k b, ~ In (EReject k b) r) by (intros k b I; apply (H k b); by right).
    destruct e as [k b|k b|k h|]; cbn [orderly]; try by apply IH.
    - split; [done|]. destruct c; [done|]. intros. by apply IH.
    - exfalso. apply (H k b). by left.
  Qed.
  Theorem C107_restart : forall c es n, c <> [] -> (forall k b, ~ In (EReject k b) es) -> prun (boot c) es = Some n ->
    chain c [] (stored es) = Some (pn_chain n, pn_answers n).
  Proof using. intros c es n NE H R. apply C107_chain; [done|by apply orderly_simple|done]. Qed.

  (* ---------------------------------------------------------------------- *)
  (** * Queries on old blocks *)

  Lemma sub_trans a b c : sub a b -> sub b c -> sub a c.
  Proof. intros A B k H. by apply B, A. Qed.
  Lemma enabled_bit f : enabled ANDROMEDA f = N.testbit f 56.
  Proof.
    unfold enabled, ANDROMEDA. destruct (N.testbit f 56) eqn:T.
    - apply N.eqb_eq. apply N.bits_inj. intros k. rewrite N.land_spec, N.pow2_bits_eqb.
      destruct (N.eqb_spec 56 k) as [<-|]; [by rewrite T|done].
    - apply N.eqb_neq. intros E. apply (f_equal (fun x => N.testbit x 56)) in E.
      rewrite N.land_spec, N.pow2_bits_eqb, T in E. done.
  Qed.
  Lemma enabled_sub f g : sub f g -> enabled ANDROMEDA f = true -> enabled ANDROMEDA g = true.
  Proof. rewrite !enabled_bit. intros S. apply S. Qed.

  Lemma announce_hl p b : hl (announce p b) = hl (p_meta p) \/ exists n f, hl (announce p b) = hf_push (hl (p_meta p)) n f.
  Proof.
    unfold announce. destruct (pb_extra b) as [|t r]; [by left|]. destruct (dec_hardfork t) as [[n f]|]; [|by left].
    right. exists n, f. unfold hl, set_hardfork_info. cbn [mt_hardfork]. by destruct (mt_hardfork (p_meta p)).
  Qed.
  Lemma announce_grows p b n : hfok (hl (p_meta p)) ->
    hfok (hl (announce p b)) /\ sub (flags p (n - 1)) (hardfork_info (announce p b) n).
  Proof.
    intros OK. unfold flags. rewrite !info_hl.
    destruct (announce_hl p b) as [->|(nb & f & ->)].
    - split; [done|]. apply hf_mono; [done|lia].
    - split; [by apply hfok_push|]. eapply sub_trans; [apply (hf_mono _ _ n); [done|lia]|]. by apply hf_push_grows.
  Qed.

  (** A configuration in the long form was written while the flag was set. *)
  Definition config_ok (p : pstate) (h : N) : Prop :=
    hfok (hl (p_meta p)) /\
    ((exists c, mt_config (p_meta p) = Some (CfgV0 c)) \/
     (exists c, mt_config (p_meta p) = Some (CfgV1 c)) /\ enabled ANDROMEDA (flags p h) = true).

  Definition old_ok (c : list pstate) : Prop :=
    match c with
    | [] => False
    | t :: _ => forall h p, state_at c h = Some p ->
        config_ok p h /\ sub (flags p h) (flags t (N.of_nat (length c) - 1))
    end.
  Definition flags_ok (n : pnode) : Prop :=
    match pn_chain n with
    | t :: _ => sub (flags t (N.of_nat (length (pn_chain n)) - 1)) (pr_hf (pn_proc n))
    | [] => False
    end.

  Lemma state_at_tip p c : state_at (p :: c) (N.of_nat (length c)) = Some p.
  Proof.
    unfold state_at. cbn [List.rev]. rewrite Nnat.Nat2N.id, nth_error_app2 by (rewrite rev_length; lia).
    by rewrite rev_length, Nat.sub_diag.
  Qed.
  Lemma state_at_cons p c h q : state_at (p :: c) h = Some q ->
    state_at c h = Some q \/ (q = p /\ h = N.of_nat (length c)).
  Proof.
    unfold state_at. cbn [List.rev]. intros E.
    destruct (Nat.lt_ge_cases (N.to_nat h) (length (List.rev c))) as [L|L].
    - left. by rewrite nth_error_app1 in E.
    - right. rewrite nth_error_app2 in E by done. rewrite rev_length in *.
      destruct (N.to_nat h - length c)%nat as [|k] eqn:K; cbn in E; [|by destruct k]. injection E as <-. split; [done|lia].
  Qed.

  Lemma old_run es : forall n n' clean, pn_chain n <> [] -> (clean = true -> clean_node n) -> flags_ok n -> old_ok (pn_chain n) ->
    orderly (pn_chain n) clean es -> prun n es = Some n' -> flags_ok n' /\ old_ok (pn_chain n').
  Proof.
    induction es as [|e r IH]; intros n n' clean NE CL FO OO OR R; [by injection R as <-|].
    cbn [ProcModel.prun] in R. destruct (pstep n e) as [n1|] eqn:S1; [|done].
    destruct (pn_chain n) as [|p c] eqn:EC; [done|].
    assert (OKp : hfok (hl (p_meta p))).
    { destruct (OO (N.of_nat (length c)) p (state_at_tip p c)) as [[H _] _]. exact H. }
    destruct e as [k b|k b|k h|]; cbn [orderly] in OR.
    - destruct OR as [-> OR]. specialize (CL eq_refl). pose proof (C107_commit n k b p c EC CL) as H.
      destruct (next p (N.of_nat (length (p :: c))) b) as [[p' x]|] eqn:NX; [|congruence].
      destruct H as (q & H & C').
      assert (EF : exists hf', adapter_exec (pr_hf (pn_proc n)) (locals_of (pn_proc n) k) p (N.of_nat (length (p :: c))) b = Ok (p', x, (p_meta p', p_cells p'), hf')).
      { unfold clean_node in CL. rewrite EC in CL. unfold next in NX. unfold ProcModel.adapter_exec.
        destruct (metadata_by_block _ _) as [md| |]; try done. rewrite C107_refines, CL.
        match goal with |- context [exec_block ?a ?b ?c] => destruct (exec_block a b c) as [[[s gas] rs]| |] end; try done.
        injection NX as <- <-. by eexists. }
      destruct EF as (hf' & EF). apply exec_flags in EF as (F1 & F2 & F3 & F4); [|cbn [length]; lia].
      rewrite H in S1. injection S1 as <-.
      destruct (announce_grows p b (N.of_nat (length (p :: c))) OKp) as [G1 G2].
      assert (FL : sub (flags p (N.of_nat (length (p :: c)) - 1)) (flags p' (N.of_nat (length (p :: c))))) by (rewrite F2, F1; exact G2).
      apply (IH (PNode (p' :: p :: c) (x :: pn_answers n) q) n' true); [done|intros _; exact C'| | |by apply (OR p' x)|exact R].
      + unfold flags_ok. unfold clean_node in C'. cbn [pn_chain pn_proc] in *. rewrite C'. apply sub_refl.
      + cbn [pn_chain]. unfold old_ok.
        replace (N.of_nat (length (p' :: p :: c)) - 1) with (N.of_nat (length (p :: c))) by (cbn [length]; lia).
        intros h0 q0 S0. apply state_at_cons in S0 as [S0|[-> ->]].
        * destruct (OO h0 q0 S0) as [O1 O2]. split; [exact O1|]. eapply sub_trans; [exact O2|exact FL].
        * split; [|apply sub_refl]. split; [unfold hl; rewrite F3; exact G1|].
          unfold clean_node in CL. rewrite EC in CL.
          destruct (OO (N.of_nat (length c)) p (state_at_tip p c)) as [[_ O1] _].
          assert (T : flags p (N.of_nat (length c)) = flags p (N.of_nat (length (p :: c)) - 1)) by (f_equal; cbn [length]; lia).
          destruct F4 as [F4|(cc & F4)].
          -- destruct O1 as [(c0 & O1)|[(c1 & O1) EN]]; [left; exists c0; congruence|].
             right. split; [exists c1; congruence|]. rewrite T in EN. by eapply enabled_sub.
          -- unfold encode_config in F4. rewrite CL in F4.
             destruct (enabled ANDROMEDA (flags p (N.of_nat (length (p :: c)) - 1))) eqn:EN; [right|left; by eexists].
             split; [by eexists|]. by eapply enabled_sub.
    - apply (reject_flags _ _ _ _ _ _ EC) in S1 as (A & B & C).
      eapply (IH n1 n' (negb (activates p (N.of_nat (length (p :: c))) b))); [by rewrite A| | |by rewrite A|by rewrite A|done].
      + unfold clean_node, activates. rewrite A, C. rewrite negb_involutive. intros H%N.eqb_eq. by rewrite H.
      + unfold flags_ok. rewrite A, C. by apply announce_grows.
    - apply call_keeps in S1 as (A & B & C).
      eapply (IH n1 n' clean); [by rewrite A, EC| | |by rewrite A, EC|by rewrite A, EC|done].
      + intros H. specialize (CL H). unfold clean_node in *. by rewrite A, C.
      + unfold flags_ok in *. by rewrite A, C.
    - apply restart_clean in S1 as (A & B & C); [|by rewrite EC].
      eapply (IH n1 n' true); [by rewrite B, EC|done| |by rewrite B, EC|by rewrite B, EC|done].
      unfold flags_ok, clean_node in *. rewrite B, EC in *. rewrite A. apply sub_refl.
  Qed.

  (** The limit on the size of contracts with which block [h + 1] is executed on the state of block [h]. *)
  Definition limit_used (p : pstate) (h : N) : outcome N :=
    if N.testbit (flags p h) 56
    then match get_consensus_config (p_meta p) with Ok c => Ok (cf_max_contract c) | _ => Panic end
    else Ok 0x6000.

  (** A query on any stored block uses the limit with which the next block was (or will be) executed, although it takes the flags from
      the process; it does not end the process. *)
  Theorem C107_query : forall p0 es n h p k, hfok (hl (p_meta p0)) -> (exists c, mt_config (p_meta p0) = Some (CfgV0 c)) ->
    orderly [p0] true es -> prun (boot [p0]) es = Some n -> state_at (pn_chain n) h = Some p ->
    call_limit (pn_proc n) k p = limit_used p h /\ exists x, call_limit (pn_proc n) k p = Ok x.
  Proof using.
    intros p0 es n h p k HF CF OR R S.
    assert (H : flags_ok n /\ old_ok (pn_chain n)).
    { eapply (old_run es (boot [p0]) n true); try done.
      - unfold flags_ok, boot, start, tip_number. cbn [pn_chain pn_proc pr_hf]. apply sub_refl.
      - unfold boot. cbn [pn_chain]. unfold old_ok. cbn [length]. intros h0 q0 S0.
        apply state_at_cons in S0 as [S0|[-> ->]]; [unfold state_at in S0; cbn in S0; by destruct (N.to_nat h0)|].
        split; [|apply sub_refl]. split; [done|by left]. }
    destruct H as [FO OO]. unfold flags_ok, old_ok in *. destruct (pn_chain n) as [|t c]; [done|].
    destruct (OO h p S) as [[_ CO] SB]. unfold call_limit, init_locals, limit_used. cbn [fst].
    rewrite <- enabled_bit. unfold get_consensus_config.
    destruct CO as [(c0 & ->)|[(c1 & ->) EN]].
    - cbn [decode_config cf_max_contract]. unfold default_max_contract_limit.
      destruct (enabled ANDROMEDA (pr_hf _)); destruct (enabled ANDROMEDA (flags p h)); (split; [done|by eexists]).
    - rewrite EN. rewrite (enabled_sub _ _ (sub_trans _ _ _ SB FO) EN). split; [done|by eexists].
  Qed.
End Props.

(* ------------------------------------------------------------------------ *)
(** * Concrete nodes *)

Definition w_abi (d : bytes) : option meta_call := match d with [5] => Some (McConfig ex_cfg) | _ => None end.
Notation w_next := (next ex_keccak w_abi (fun _ : unit => []) (fun _ => []) ex_cell_abi ex_cell_abi ex_evm).
Notation w_chain := (chain ex_keccak w_abi (fun _ : unit => []) (fun _ => []) ex_cell_abi ex_cell_abi ex_evm).
Notation w_step := (pstep ex_keccak w_abi (fun _ : unit => []) (fun _ => []) ex_cell_abi ex_cell_abi ex_evm).
Notation w_run := (prun ex_keccak w_abi (fun _ : unit => []) (fun _ => []) ex_cell_abi ex_cell_abi ex_evm).
Notation w_exec := (adapter_exec ex_keccak w_abi (fun _ : unit => []) (fun _ => []) ex_cell_abi ex_cell_abi ex_evm).
Notation w_orderly := (orderly ex_keccak w_abi (fun _ : unit => []) (fun _ => []) ex_cell_abi ex_cell_abi ex_evm).

(** the state after genesis: two epochs, no hardfork *)
Definition w_meta : meta :=
  match mrun meta0 [EvAppend 0 (ex_md 0 1 100); EvAppend 0 (ex_md 1 101 150); EvHardfork 0 0] with Ok m => m | _ => meta0 end.
Definition w_gen : pstate := PState (list_to_map [(alice, Acc 0 1000000 ∅ NIL_CODE)]) ∅ w_meta ∅.
Definition w_val : bytes := repeat 1 20.
(** block 1 announces the hardfork for block 2; block 2 changes the configuration; block 3 has a transfer and a light client call *)
Definition w_b1 : pblock := PBlock w_val [enc_hardfork (2, ANDROMEDA)] [].
Definition w_b2 : pblock := PBlock w_val [] [ex_tx 1 100 (sys 1) 0 [5] w_val].
Definition w_b3 : pblock := PBlock w_val [] [ex_tx 3 30000 (Call bob) 500 [] alice; ex_tx 1 100 (sys 2) 0 [1] bob].

(** A node that answers queries, is stopped twice and throws the execution of block 1 away once. *)
Definition w_es : list pevent :=
  [ECall 7 0; EReject 3 w_b1; ECommit 1 w_b1; ERestart; ECommit 2 w_b2; ECall 2 0; ECall 1 1; ECommit 2 w_b3; ERestart].

Lemma some_run (o : option pnode) (P : pnode -> bool) : match o with Some n => P n | None => false end = true ->
  exists n, o = Some n /\ P n = true.
Proof. destruct o as [n|]; [|done]. intros H. by exists n. Qed.

Example C107_ex : w_orderly [w_gen] true w_es /\ hfok (hl (p_meta w_gen)) /\ (exists c, mt_config (p_meta w_gen) = Some (CfgV0 c)) /\
  exists n, w_run (boot [w_gen]) w_es = Some n /\ length (pn_chain n) = 4%nat /\ pr_hf (pn_proc n) = ANDROMEDA /\
    map fst (pn_answers n) = [21000; 0; 0].
Proof.
  split; [|split; [|split]].
  - unfold w_es. cbn [orderly]. split; [vm_compute; reflexivity|]. intros p1 x1 _. split; [done|]. intros p2 x2 _. split; [done|]. done.
  - change (hfok ([] ++ [(0, 0)])). constructor; [constructor|]. intros ? ? [].
  - vm_compute. by eexists.
  - destruct (some_run (w_run (boot [w_gen]) w_es) (fun n => bool_decide (length (pn_chain n) = 4%nat /\ pr_hf (pn_proc n) = ANDROMEDA /\ map fst (pn_answers n) = [21000; 0; 0]))) as (n & R & B).
    { vm_compute. reflexivity. }
    exists n. split; [exact R|]. by apply bool_decide_eq_true in B.
Qed.

(** What remains of a rejected execution: the block that activates a hardfork is executed for a header with a wrong root, as any
    peer can send it, and thrown away.  From then on every execution of the right block ends in another state than the one that all
    other nodes have, so it is rejected too, however often it is tried and whatever is asked meanwhile - until the node is started
    again. *)
Definition only (b : pblock) (e : pevent) : Prop := match e with EReject _ b' => b' = b | ECall _ _ => True | _ => False end.

(** the node after block 1, block 2 as all nodes execute it, and as it is executed after a rejection *)
Definition w_n : pnode := match w_run (boot [w_gen]) [ECommit 1 w_b1] with Some n => n | None => boot [] end.
Definition w_tip : pstate := hd w_gen (pn_chain w_n).
Definition w_good : pstate * (N * list tx_resp) := match w_next w_tip 2 w_b2 with Some x => x | None => (w_gen, (0, [])) end.
Definition w_bad : pstate * (N * list tx_resp) * locals * N :=
  match w_exec ANDROMEDA locals0 w_tip 2 w_b2 with Ok x => x | _ => (w_gen, (0, []), locals0, 0) end.

Lemma w_n_ok : w_run (boot [w_gen]) [ECommit 1 w_b1] = Some w_n.
Proof. unfold w_n. destruct (w_run _ _) eqn:E; [done|]. exfalso. vm_compute in E. discriminate E. Qed.
Lemma w_n_chain : pn_chain w_n = [w_tip; w_gen].
Proof.
  assert (R : w_chain [w_gen] [] [w_b1] = Some (pn_chain w_n, pn_answers w_n)).
  { apply (C107_chain ex_keccak w_abi (fun _ : unit => []) (fun _ => []) ex_cell_abi ex_cell_abi ex_evm [w_gen] [ECommit 1 w_b1]);
      [done|done|apply w_n_ok]. }
  cbn [chain length] in R. destruct (w_next w_gen _ w_b1) as [[q y]|]; [|discriminate R].
  apply (f_equal (fun o => match o with Some (a, _) => a | None => [] end)) in R. cbv beta iota in R.
  unfold w_tip. rewrite <- R. reflexivity.
Qed.
Lemma w_good_ok : w_next w_tip 2 w_b2 = Some w_good.
Proof. unfold w_good. destruct (w_next _ _ _) eqn:E; [done|]. exfalso. vm_compute in E. discriminate E. Qed.
Lemma w_bad_ok : w_exec ANDROMEDA locals0 w_tip 2 w_b2 = Ok w_bad.
Proof. unfold w_bad. destruct (w_exec _ _ _ _ _) eqn:E; [done|exfalso; vm_compute in E; discriminate E..]. Qed.

Lemma w_flags es : forall n n', Forall (only w_b2) es -> pn_chain n = [w_tip; w_gen] -> pr_hf (pn_proc n) = ANDROMEDA ->
  w_run n es = Some n' -> pn_chain n' = [w_tip; w_gen] /\ pr_hf (pn_proc n') = ANDROMEDA.
Proof.
  induction es as [|e r IH]; intros n n' F C H R; [by injection R as <-|]. apply Forall_cons in F as [F1 F2].
  cbn [prun] in R. destruct (w_step n e) as [n1|] eqn:S1; [|done].
  destruct e as [k b|k b|k h|]; cbn [only] in F1; try done.
  - subst b. apply (reject_flags _ _ _ _ _ _ _ _ _ _ _ _ _ C) in S1 as (A & _ & B).
    apply (IH n1); [done|done| |done]. rewrite B. vm_compute. reflexivity.
  - apply call_keeps in S1 as (A & _ & B). apply (IH n1); [done|congruence|congruence|done].
Qed.

Theorem C107_rejected_refuted : exists c b p x,
  (exists n, w_run (boot [w_gen]) [ECommit 1 w_b1] = Some n /\ pn_chain n = c) /\
  w_chain c [] [b] = Some (p :: c, [x]) /\
  (exists n, w_run (boot c) [EReject 1 b; EReject 2 b] = Some n) /\
  (forall k es n, Forall (only b) es -> w_run (boot c) (EReject k b :: es) = Some n ->
     forall k', exists p' x' tl hf, w_exec (pr_hf (pn_proc n)) (locals_of (pn_proc n) k') (hd p c) 2 b = Ok (p', x', tl, hf) /\
       mt_config (p_meta p') <> mt_config (p_meta p)) /\
  (exists n, w_run (boot c) [EReject 1 b; EReject 2 b; ERestart; ECommit 1 b] = Some n /\ pn_chain n = p :: c).
Proof.
  exists [w_tip; w_gen], w_b2, (fst w_good), (snd w_good). split; [|split; [|split; [|split]]].
  - exists w_n. split; [apply w_n_ok|apply w_n_chain].
  - cbn [chain length]. change (N.of_nat 2) with 2. rewrite w_good_ok. by destruct w_good.
  - destruct (w_run (boot [w_tip; w_gen]) [EReject 1 w_b2; EReject 2 w_b2]) as [n|] eqn:E; [by exists n|].
    exfalso. vm_compute in E. discriminate E.
  - intros k es n F R k'. cbn [hd].
    assert (H : pr_hf (pn_proc n) = ANDROMEDA).
    { cbn [prun] in R. destruct (w_step (boot [w_tip; w_gen]) (EReject k w_b2)) as [n1|] eqn:S1; [|done].
      apply (reject_flags _ _ _ _ _ _ _ (boot [w_tip; w_gen]) _ _ _ w_tip [w_gen] eq_refl) in S1 as (A & _ & B).
      eapply (w_flags es n1 n); [done|done| |done]. rewrite B. vm_compute. reflexivity. }
    rewrite H, (C107_threads _ _ _ _ _ _ _ ANDROMEDA _ locals0), w_bad_ok.
    destruct w_bad as [[[p' x'] tl] hf] eqn:W. exists p', x', tl, hf. split; [done|].
    assert (E1 : mt_config (p_meta (fst (fst (fst w_bad)))) = Some (CfgV1 ex_cfg)) by (vm_compute; reflexivity).
    assert (E2 : mt_config (p_meta (fst w_good)) = Some (CfgV0 (cf_base ex_cfg))) by (vm_compute; reflexivity).
    rewrite W in E1. cbn [fst] in E1. rewrite E1, E2. discriminate.
  - destruct (w_run (boot [w_tip; w_gen]) [EReject 1 w_b2; EReject 2 w_b2; ERestart; ECommit 1 w_b2]) as [n|] eqn:E;
      [|exfalso; vm_compute in E; discriminate E].
    exists n. split; [reflexivity|].
    assert (OR : w_orderly [w_tip; w_gen] true [EReject 1 w_b2; EReject 2 w_b2; ERestart; ECommit 1 w_b2]).
    { cbn [orderly]. split; [reflexivity|]. intros p' x' _. exact I. }
    apply (C107_chain ex_keccak w_abi (fun _ : unit => []) (fun _ => []) ex_cell_abi ex_cell_abi ex_evm [w_tip; w_gen] _ n (not_eq_sym (@nil_cons _ w_tip [w_gen])) OR) in E.
    cbn [stored chain length] in E. change (N.of_nat 2) with 2 in E. rewrite w_good_ok in E. revert E. generalize w_good.
    intros [p' x'] E. apply (f_equal (fun o => match o with Some (a, _) => a | None => [] end)) in E. cbv beta iota in E.
    symmetry. exact E.
Qed.

Print Assumptions C107_refines.
Print Assumptions C107_threads.
Print Assumptions C107_commit.
Print Assumptions C107_chain.
Print Assumptions C107_agree.
Print Assumptions C107_restart.
Print Assumptions C107_query.
Print Assumptions C107_rejected_refuted.
