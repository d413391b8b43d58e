(** C71: the EVM reads what was written. *)
From stdpp Require Import base gmap list.
From Verif Require Import Bytes BytesProofs Rlp TxModel BlockModel MempoolModel CellModel MetaModel MetaProofs MetaProps ExecModel ExecProofs ExecProps BackendModel.
From Coq Require Import Lia.
Local Open Scope N_scope.

(* ------------------------------------------------------------------------ *)
(** * Specification: the world as contracts see it *)
Record wacc := WAcc { w_nonce : N; w_balance : N; w_code : bytes; w_slot : bytes -> N }.
Definition world := bytes -> option wacc.
Definition no_account : wacc := WAcc 0 0 [] (fun _ => 0).

(** the last write to a slot wins *)
Fixpoint slot_after (l : list (bytes * N)) (old : N) (k : bytes) : N :=
  match l with
  | [] => old
  | (k', v) :: r => slot_after r (if decide (k' = k) then v else old) k
  end.
(** one change requested by the EVM *)
Definition change (w : world) (op : apply_op) : world :=
  match op with
  | AModify a n b code st reset => fun x =>
      if decide (x = a) then
        let old := default no_account (w a) in
        Some (WAcc n b (match code with Some c => c | None => w_code old end)
                (fun k => slot_after st (if reset then 0 else w_slot old k) k))
      else w x
  | ADelete a => fun x => if decide (x = a) then None else w x
  end.

(** all that the EVM can ask about accounts *)
Definition sees (s : xstate) (w : world) : Prop := forall a,
  be_exists s a = bool_decide (is_Some (w a)) /\
  be_basic s a = (w_nonce (default no_account (w a)), w_balance (default no_account (w a))) /\
  be_code s a = w_code (default no_account (w a)) /\
  forall k, be_storage s a k = w_slot (default no_account (w a)) k.

(** a sender pays the whole gas limit before the interpreter runs, and gets the rest back afterwards *)
Definition prepaid (w : world) (a : bytes) (cost : N) : world := fun x =>
  if decide (x = a) then let o := default no_account (w a) in Some (WAcc (w_nonce o) (w_balance o - cost) (w_code o) (w_slot o))
  else w x.
Definition settled (w : world) (a : bytes) (nonce bal : N) : world := fun x =>
  if decide (x = a) then let o := default no_account (w a) in Some (WAcc nonce bal (w_code o) (w_slot o)) else w x.

Section Props.
  Variable keccak : bytes -> bytes.

  (** what would have to go wrong with the hash *)
  Definition broken : Prop := (exists x y, x <> y /\ keccak x = keccak y) \/ (exists x, be_val (keccak x) = 0).

  (** codes are stored under their hash, and every account's code is stored *)
  Definition code_ok (s : xstate) : Prop :=
    (forall h c, xs_code s !! h = Some c -> keccak c = h) /\
    forall a x, xs_acc s !! a = Some x -> a_code x = NIL_CODE \/ is_Some (xs_code s !! a_code x).

  Lemma code_ok_acc s m : code_ok s -> (forall a x, m !! a = Some x -> a_code x = NIL_CODE \/ is_Some (xs_code s !! a_code x)) ->
    code_ok (set_acc s m).
  Proof. intros [A _] H. split; [exact A|exact H]. Qed.
  Lemma get_code s a : code_ok s -> a_code (get_account (xs_acc s) a) = NIL_CODE \/ is_Some (xs_code s !! a_code (get_account (xs_acc s) a)).
  Proof. intros [_ B]. unfold get_account. destruct (xs_acc s !! a) as [x|] eqn:E; cbn; [by apply (B a)|by left]. Qed.
  Lemma code_ok_save s a x : code_ok s -> (a_code x = NIL_CODE \/ is_Some (xs_code s !! a_code x)) -> code_ok (save_account s a x).
  Proof.
    intros C H. apply code_ok_acc; [done|]. intros b y. destruct (decide (a = b)) as [<-|N].
    - rewrite lookup_insert. by intros [= <-].
    - rewrite lookup_insert_ne by done. apply C.
  Qed.
  Lemma code_ok_delete s a : code_ok s -> code_ok (set_acc s (delete a (xs_acc s))).
  Proof. intros C. apply code_ok_acc; [done|]. intros b y H. apply lookup_delete_Some in H as [_ H]. by apply (proj2 C b). Qed.

  Lemma code_ok_one del s op : code_ok s -> code_ok (apply_one keccak del s op).
  Proof.
    intros C. destruct op as [a n b c st r|a]; [|by apply code_ok_delete].
    unfold apply_one, modify. cbn zeta.
    assert (K : forall codes ch, (forall h c, codes !! h = Some c -> keccak c = h) ->
        (forall h, is_Some (xs_code s !! h) -> is_Some (codes !! h)) -> (ch = NIL_CODE \/ is_Some (codes !! ch)) -> forall acc e,
        a_code acc = ch ->
        code_ok (let (s', empty) := (XState (<[a := acc]> (xs_acc s)) codes (xs_logs s) (xs_ctx s) (xs_meta s) (xs_cells s) (xs_hf s), e) in
                 if empty && del then set_acc s' (delete a (xs_acc s')) else s')).
    { intros codes ch H1 H2 H3 acc e EC.
      assert (Q : code_ok (XState (<[a := acc]> (xs_acc s)) codes (xs_logs s) (xs_ctx s) (xs_meta s) (xs_cells s) (xs_hf s))).
      { split; [exact H1|]. cbn [xs_acc xs_code]. intros x y. destruct (decide (a = x)) as [<-|NE].
        - rewrite lookup_insert. intros [= <-]. by rewrite EC.
        - rewrite lookup_insert_ne by done. intros L. destruct (proj2 C x y L) as [?|?]; [by left|right; by apply H2]. }
      destruct (e && del); [|exact Q]. by apply code_ok_delete. }
    destruct c as [c|]; [destruct (beqb (keccak c) _)|].
    - eapply K; [exact (proj1 C)|done|by apply get_code|done].
    - eapply K; [| | |reflexivity].
      + intros h c'. destruct (decide (keccak c = h)) as [<-|NE]; [rewrite lookup_insert; by intros [= <-]|].
        rewrite lookup_insert_ne by done. apply C.
      + intros h. destruct (decide (keccak c = h)) as [<-|NE]; [rewrite lookup_insert; by eexists|by rewrite lookup_insert_ne].
      + right. rewrite lookup_insert. by eexists.
    - eapply K; [exact (proj1 C)|done|by apply get_code|done].
  Qed.
  Lemma code_ok_ops s ops logs del : code_ok s -> code_ok (apply_ops keccak s ops logs del).
  Proof.
    intros C. unfold apply_ops. assert (Q : code_ok (fold_left (apply_one keccak del) ops s)); [|exact Q].
    revert s C. induction ops as [|op ops IH]; intros s C; [done|]. cbn. apply IH. by apply code_ok_one.
  Qed.

  Lemma write_slots_spec l m k : default 0 (write_slots m l !! k) = slot_after l (default 0 (m !! k)) k.
  Proof.
    revert m. induction l as [|[k' v] l IH]; intros m; [done|]. cbn [slot_after].
    change (write_slots m ((k', v) :: l)) with (write_slots (if v =? 0 then delete k' m else <[k' := v]> m) l).
    rewrite IH. f_equal. destruct (N.eqb_spec v 0) as [->|NZ]; destruct (decide (k' = k)) as [<-|NE].
    - by rewrite lookup_delete.
    - by rewrite lookup_delete_ne.
    - by rewrite lookup_insert.
    - by rewrite lookup_insert_ne.
  Qed.

  Lemma nil_code_pos : be_val NIL_CODE <> 0.
  Proof. vm_compute. done. Qed.

  (** a new version of one account *)
  Lemma sees_put (s : xstate) (w : world) (a : bytes) (acc : account) (codes : gmap bytes bytes) (ch : bytes) (del : bool) (n b : N) (code : option bytes) (st : list (bytes * N)) (r : bool) : code_ok s -> sees s w ->
    (forall h c, xs_code s !! h = Some c -> codes !! h = Some c) ->
    (if beqb ch NIL_CODE then [] else match codes !! ch with Some c => c | None => [] end) = match code with Some c => c | None => be_code s a end ->
    be_val ch <> 0 ->
    acc = Acc n b (write_slots (if r then (∅ : gmap bytes N) else a_storage (get_account (xs_acc s) a)) st) ch ->
    sees (let (s', empty) := (XState (<[a := acc]> (xs_acc s)) codes (xs_logs s) (xs_ctx s) (xs_meta s) (xs_cells s) (xs_hf s),
                              (b =? 0) && (n =? 0) && (be_val ch =? 0)) in
          if empty && del then set_acc s' (delete a (xs_acc s')) else s') (change w (AModify a n b code st r)).
  Proof.
    intros C S EX CV NZ ->. rewrite (proj2 (N.eqb_neq _ _) NZ), andb_false_r. cbn [andb].
    intros x. cbn [change]. unfold be_exists, be_basic, be_code, be_storage. cbn [xs_acc xs_code].
    destruct (decide (x = a)) as [->|NE].
    - rewrite lookup_insert. cbn [default w_nonce w_balance w_code w_slot a_nonce a_balance a_code a_storage]. split; [done|]. split; [done|].
      destruct (S a) as (_ & _ & SC & SS). split.
      + etransitivity; [exact CV|]. destruct code; [done|]. by rewrite SC.
      + intros k. cbn [from_option id w_slot]. rewrite write_slots_spec. unfold id; cbn [w_slot]. f_equal. destruct r; [done|]. etransitivity; [|exact (SS k)]. unfold be_storage, get_account.
        destruct (xs_acc s !! a); cbn; done.
    - rewrite lookup_insert_ne by done. destruct (S x) as (S1 & S2 & S3 & S4).
      split; [exact S1|]. split; [exact S2|]. split; [|exact S4].
      rewrite <- S3. unfold be_code. destruct (xs_acc s !! x) as [y|] eqn:L; [|done].
      destruct (beqb_spec (a_code y) NIL_CODE) as [|NN]; [done|].
      destruct (proj2 C x y L) as [?|[c Lc]]; [done|]. by rewrite Lc, (EX _ _ Lc).
  Qed.

  Lemma sees_one del s w op : keccak [] = NIL_CODE -> code_ok s -> sees s w ->
    sees (apply_one keccak del s op) (change w op) \/ broken.
  Proof.
    intros K0 C S. destruct op as [a n b c st r|a].
    - unfold apply_one, modify. cbn zeta. set (old := get_account (xs_acc s) a).
      assert (OV : (if beqb (a_code old) NIL_CODE then [] else match xs_code s !! a_code old with Some c => c | None => [] end) = be_code s a).
      { unfold old, be_code, get_account. destruct (xs_acc s !! a); done. }
      assert (OZ : be_val (a_code old) <> 0 \/ broken).
      { destruct (N.eq_dec (be_val (a_code old)) 0) as [Z|]; [|by left]. right. right.
        destruct (get_code s a C) as [E|[c' E]]; fold old in E; [rewrite E in Z; by destruct (nil_code_pos Z)|].
        exists c'. by rewrite (proj1 C _ _ E). }
      destruct OZ as [OZ|]; [|by right].
      destruct c as [c|].
      + destruct (beqb_spec (keccak c) (a_code old)) as [E|NE].
        * destruct (decide (c = be_code s a)) as [Ec|Nc].
          -- left. eapply sees_put; [done|done|done| |done|done]. by rewrite OV.
          -- right. left. exists c, (be_code s a). split; [done|]. rewrite E, <- OV.
             destruct (beqb_spec (a_code old) NIL_CODE) as [->|NN]; [done|].
             destruct (get_code s a C) as [?|[c' E']]; [done|]. fold old in E'.
             assert (Q : forall o : option bytes, o = Some c' -> match o with Some c => c | None => [] end = c') by (by intros ? ->).
             transitivity (keccak c'); [symmetry; by apply C|]. f_equal. symmetry. exact (Q _ E').
        * destruct (xs_code s !! keccak c) as [c'|] eqn:L.
          { destruct (decide (c' = c)) as [->|Nc]; [|right; left; exists c', c; split; [done|by apply C]].
            destruct (N.eq_dec (be_val (keccak c)) 0) as [Z|NZ]; [right; right; by exists c|].
            destruct (beqb_spec (keccak c) NIL_CODE) as [En|Nn].
            - destruct (decide (c = [])) as [->|N0]; [|right; left; exists c, []; split; [done|by rewrite K0]].
              left. eapply sees_put; [done|done| | |done|done].
              + intros h x H. destruct (decide (keccak [] = h)) as [<-|]; [by rewrite lookup_insert, <- L, <- H|by rewrite lookup_insert_ne].
              + by rewrite (proj2 (beqb_eq _ _) En).
            - left. eapply sees_put; [done|done| | |done|done].
              + intros h x H. destruct (decide (keccak c = h)) as [<-|]; [by rewrite lookup_insert, <- L, <- H|by rewrite lookup_insert_ne].
              + destruct (beqb_spec (keccak c) NIL_CODE); [done|]. by rewrite lookup_insert. }
          { destruct (N.eq_dec (be_val (keccak c)) 0) as [Z|NZ]; [right; right; by exists c|].
            assert (EX : forall h x, xs_code s !! h = Some x -> <[keccak c := c]> (xs_code s) !! h = Some x).
            { intros h x H. rewrite lookup_insert_ne; [done|]. intros <-. congruence. }
            destruct (beqb_spec (keccak c) NIL_CODE) as [En|Nn].
            - destruct (decide (c = [])) as [->|N0]; [|right; left; exists c, []; split; [done|by rewrite K0]].
              left. eapply sees_put; [done|done|exact EX| |done|done]. by rewrite (proj2 (beqb_eq _ _) En).
            - left. eapply sees_put; [done|done|exact EX| |done|done].
              destruct (beqb_spec (keccak c) NIL_CODE); [done|]. by rewrite lookup_insert. }
      + left. eapply sees_put; [done|done|done|exact OV|done|done].
    - left. intros x. cbn [change apply_one]. destruct (S x) as (S1 & S2 & S3 & S4).
      unfold be_exists, be_basic, be_code, be_storage, set_acc in *. cbn [xs_acc xs_code].
      destruct (decide (x = a)) as [->|NE]; [by rewrite lookup_delete|]. by rewrite lookup_delete_ne.
  Qed.

  (** Whatever changes the EVM asks for, whether or not empty accounts are to be removed, afterwards it reads the world
      with those changes made one after the other. *)
  Theorem C71_apply : forall s w ops logs del, keccak [] = NIL_CODE -> code_ok s -> sees s w ->
    code_ok (apply_ops keccak s ops logs del) /\
    (sees (apply_ops keccak s ops logs del) (fold_left change ops w) \/ broken).
  Proof.
    intros s w ops logs del K0 C S. split; [by apply code_ok_ops|]. unfold apply_ops.
    assert (Q : sees (fold_left (apply_one keccak del) ops s) (fold_left change ops w) \/ broken); [|exact Q].
    revert s w C S. induction ops as [|op ops IH]; intros s w C S; [by left|]. cbn.
    destruct (sees_one del s w op K0 C S) as [H|]; [|by right]. apply IH; [by apply code_ok_one|done].
  Qed.

  (** In particular accounts without nonce, balance and code stay in the state, although the caller asks for their removal. *)
  Theorem C71_empty_kept : forall s a, be_exists s a = false ->
    be_exists (apply_ops keccak s [AModify a 0 0 None [] false] [] true) a = true /\
    be_basic (apply_ops keccak s [AModify a 0 0 None [] false] [] true) a = (0, 0) /\
    be_code (apply_ops keccak s [AModify a 0 0 None [] false] [] true) a = [].
  Proof.
    intros s a E. unfold be_exists in E. unfold apply_ops, set_logs, be_exists, be_basic, be_code. cbn [fold_left xs_acc xs_code].
    unfold apply_one, modify, get_account. cbn zeta. destruct (xs_acc s !! a) eqn:L; [done|]. cbn [default a_code acc0 a_storage write_slots fold_left].
    rewrite (proj2 (N.eqb_neq _ _) nil_code_pos). rewrite !andb_false_r. cbn [andb xs_acc xs_code]. rewrite lookup_insert. done.
  Qed.

  (** rewriting nonce and balance of one account *)
  Lemma sees_save s w a n b : sees s w ->
    sees (save_account s a (Acc n b (a_storage (get_account (xs_acc s) a)) (a_code (get_account (xs_acc s) a)))) (settled w a n b).
  Proof.
    intros S x. unfold settled, be_exists, be_basic, be_code, be_storage, save_account, set_acc. cbn [xs_acc xs_code].
    destruct (decide (x = a)) as [->|NE].
    - rewrite lookup_insert. cbn [a_nonce a_balance a_code a_storage]. unfold default, id. cbn [w_nonce w_balance w_code w_slot].
      destruct (S a) as (_ & _ & S3 & S4). split; [done|]. split; [done|]. unfold be_code, be_storage, get_account in *.
      destruct (xs_acc s !! a) as [y|]; [by split|]. split; [|exact S4]. exact S3.
    - rewrite lookup_insert_ne by done. exact (S x).
  Qed.
  Lemma sees_ext s s' w w' : xs_acc s' = xs_acc s -> xs_code s' = xs_code s -> (forall x, w' x = w x) -> sees s w -> sees s' w'.
  Proof. intros A C W S x. rewrite W. unfold be_exists, be_basic, be_code, be_storage in *. rewrite A, C. exact (S x). Qed.
  Lemma code_ok_ext s s' : xs_acc s' = xs_acc s -> xs_code s' = xs_code s -> code_ok s -> code_ok s'.
  Proof. intros A C [H1 H2]. unfold code_ok. rewrite A, C. by split. Qed.

  Variable meta_abi : bytes -> option meta_call.
  Context {hdr : Type} (hdr_hash : hdr -> bytes) (henc : hdr -> bytes).
  Variable ckb_abi image_abi : bytes -> option (@cell_call hdr).
  Notation exec_tx evm := (exec_tx keccak meta_abi hdr_hash henc ckb_abi image_abi evm).
  Notation exec_loop evm := (exec_loop keccak meta_abi hdr_hash henc ckb_abi image_abi evm).
  Notation exec_block evm := (exec_block keccak meta_abi hdr_hash henc ckb_abi image_abi evm).

  (** A transaction that runs the EVM: the interpreter is started on the world in which the sender has paid for the gas
      limit, and afterwards the world is that one with the interpreter's changes if it succeeded, without them otherwise,
      the sender's nonce raised and the remaining gas paid back. *)
  Theorem C71_transaction : forall evm limit s w t s' r, keccak [] = NIL_CODE -> code_ok s -> sees s w -> ~ is_system t ->
    exec_tx evm limit s t = Ok (s', r) ->
    let w1 := prepaid w (s_sender t) (price_of t * limit_of t) in
    exists s1, sees s1 w1 /\ c_origin (xs_ctx s1) = s_sender t /\ c_price (xs_ctx s1) = price_of t /\ c_number (xs_ctx s1) = c_number (xs_ctx s) /\
      let o := evm s1 limit t in
      let w2 := if is_succeed (eo_exit o) then fold_left change (eo_values o) w1 else w1 in
      let paid := w_balance (default no_account (w2 (s_sender t))) in
      x_exit r = eo_exit o /\ x_ret r = eo_ret o /\
      x_logs r = (if is_succeed (eo_exit o) then eo_logs o else xs_logs s) /\
      code_ok s' /\
      (broken \/ exists b, sees s' (settled w2 (s_sender t) (w_nonce (default no_account (w (s_sender t))) + 1) b) /\
         (paid + eo_remain o * price_of t < 2^256 -> b = paid + eo_remain o * price_of t)).
  Proof.
    intros evm limit s w t s' r K0 C S NS E w1. unfold ExecModel.exec_tx in E.
    rewrite (dispatch_other keccak meta_abi hdr_hash henc ckb_abi image_abi) in E by done.
    unfold evm_exec in E. cbn zeta in E.
    match type of E with context [evm ?x limit t] => set (s1 := x) in * end. exists s1.
    set (x := get_account (xs_acc s) (s_sender t)) in *.
    assert (NB : w_nonce (default no_account (w (s_sender t))) = a_nonce x /\ w_balance (default no_account (w (s_sender t))) = a_balance x).
    { destruct (S (s_sender t)) as (_ & B & _). unfold be_basic in B. unfold x, get_account. destruct (xs_acc s !! s_sender t); injection B as B1 B2; (split; symmetry; [exact B1|exact B2]). }
    assert (S1 : sees s1 w1).
    { eapply sees_ext; [reflexivity|reflexivity| |exact (sees_save s w (s_sender t) (a_nonce x) (a_balance x - price_of t * limit_of t) S)].
      intros y. unfold w1, prepaid, settled. destruct (decide _); [|done]. by rewrite (proj1 NB), (proj2 NB). }
    assert (C1 : code_ok s1).
    { eapply code_ok_ext; [reflexivity|reflexivity|]. apply (code_ok_save s (s_sender t) (Acc (a_nonce x) (a_balance x - price_of t * limit_of t) (a_storage x) (a_code x)) C).
      cbn [a_code]. by apply get_code. }
    split; [exact S1|]. split; [done|]. split; [done|]. split; [done|].
    set (o := evm s1 limit t) in *. destruct (U256_MOD <=? _); [done|].
    set (s2 := if is_succeed (eo_exit o) then apply_ops keccak s1 (eo_values o) (eo_logs o) true else s1) in *.
    injection E as <- <-. cbn zeta. cbn [x_exit x_ret x_logs]. split; [done|]. split; [done|].
    set (w2 := if is_succeed (eo_exit o) then fold_left change (eo_values o) w1 else w1).
    assert (C2 : code_ok s2) by (unfold s2; destruct (is_succeed _); [by apply code_ok_ops|done]).
    assert (S2 : sees s2 w2 \/ broken).
    { unfold s2, w2. destruct (is_succeed _); [|by left]. by apply C71_apply. }
    split. { unfold s2. destruct (is_succeed (eo_exit o)); done. }
    set (y := get_account (xs_acc s2) (s_sender t)) in *.
    split.
    { eapply code_ok_ext; [reflexivity|reflexivity|]. apply code_ok_save; [done|]. cbn [a_code]. by apply get_code. }
    destruct S2 as [S2|]; [right|by left].
    eexists. split.
    { eapply sees_ext; [reflexivity|reflexivity| |]; [|apply (sees_save s2 w2 _ _ _ S2)].
      intros z. unfold settled. destruct (decide _); [|done]. rewrite (proj1 NB). reflexivity. }
    cbn beta. assert (PB : w_balance (default no_account (w2 (s_sender t))) = a_balance y).
    { destruct (S2 (s_sender t)) as (_ & B & _). unfold be_basic in B. unfold y, get_account. destruct (xs_acc s2 !! s_sender t); injection B as B1 B2; symmetry; exact B2. }
    rewrite PB. intros L. destruct (N.eqb_spec (eo_remain o) 0) as [->|NZ]; [lia|].
    apply add_sat_eq. exact L.
  Qed.

  (** the system contracts only touch nonces, balances and their own stores *)
  Lemma system_code_ok s t r : code_ok s ->
    dispatch keccak meta_abi hdr_hash henc ckb_abi image_abi s t = Some r -> forall s' x, r = Ok (s', x) -> code_ok s'.
  Proof.
    intros C D s' x ->. unfold dispatch in D.
    assert (RV : forall s gl s' x, reverting s gl = Ok (s', x) -> s' = s).
    { intros s0 gl s1 y. unfold reverting, revert_resp. destruct (gl =? 0); [done|]. by intros [= <- _]. }
    assert (US : forall s a l s', code_ok s -> update_states keccak s a l = Ok s' -> code_ok s').
    { intros s0 a l s1 C0. unfold update_states. cbn zeta. destruct (U256_MOD <=? _); [done|]. intros [= <-]. by apply code_ok_ops. }
    destruct (tx_to _) as [a|]; [|done].
    assert (CE : forall abi s0, cells_exec keccak hdr_hash henc abi s t = Ok (s0, x) -> code_ok s0).
    { intros abi s0. unfold cells_exec. cbn zeta. destruct (cell_exec _ _ _ _) as [c []].
      - destruct (update_states _ _ _ _) eqn:U; [|done|done]. intros [= <- _]. eapply US; [|exact U]. exact C.
      - intros E. by rewrite (RV _ _ _ _ E). }
    repeat (destruct (beqb a _); [injection D as D|]); [| | | |done].
    - unfold native_exec in D. destruct (tx_data _) as [|d rest]; [by rewrite (RV _ _ _ _ D)|].
      destruct (_ || _); [by rewrite (RV _ _ _ _ D)|].
      destruct (d =? 0).
      + destruct (U256_MOD <=? _); [done|]. destruct (U256_MOD <=? _); [done|]. injection D as <- _. by apply code_ok_ops.
      + destruct (_ <? _); [by rewrite (RV _ _ _ _ D)|]. destruct (U256_MOD <=? _); [done|]. injection D as <- _. by apply code_ok_ops.
    - unfold metadata_exec in D. cbn zeta in D.
      destruct (if c_number (xs_ctx s) =? 0 then Ok true else is_validator (xs_meta s) (c_number (xs_ctx s)) (s_sender t)) as [[]| |]; [|by rewrite (RV _ _ _ _ D)|by rewrite (RV _ _ _ _ D)|done].
      match type of D with match ?o with _ => _ end = _ => destruct o end; [|by rewrite (RV _ _ _ _ D)|done].
      destruct (update_states _ _ _ _) eqn:U; [|done|done]. injection D as <- _. eapply US; [|exact U]. exact C.
    - exact (CE _ _ D).
    - exact (CE _ _ D).
  Qed.
  Lemma evm_code_ok evm limit s t s' x : code_ok s -> evm_exec keccak evm limit s t = Ok (s', x) -> code_ok s'.
  Proof.
    intros C E. unfold evm_exec in E. cbn zeta in E. destruct (U256_MOD <=? _); [done|]. injection E as <- _.
    match goal with |- code_ok (save_account ?s2 _ _) => assert (C2 : code_ok s2) end.
    { match goal with |- context [if _ then apply_ops keccak ?s1 _ _ _ else _] => assert (C1 : code_ok s1) end.
      { apply code_ok_save; [done|]. cbn [a_code]. by apply get_code. }
      destruct (is_succeed _); [by apply code_ok_ops|done]. }
    apply code_ok_save; [done|]. cbn [a_code]. by apply get_code.
  Qed.
  Lemma tx_code_ok evm limit s t s' r : code_ok s -> exec_tx evm limit s t = Ok (s', r) -> code_ok s'.
  Proof.
    intros C E. unfold ExecModel.exec_tx in E. cbn zeta in E.
    match type of E with context [dispatch _ _ _ _ _ _ ?x t] => set (s0 := x) in * end.
    assert (C0 : code_ok s0) by exact C.
    assert (Q : forall s1 x, match dispatch keccak meta_abi hdr_hash henc ckb_abi image_abi s0 t with Some r => r | None => evm_exec keccak evm limit s0 t end = Ok (s1, x) -> code_ok s1).
    { intros s1 x. destruct (dispatch _ _ _ _ _ _ _ _) eqn:D; [intros ->; by eapply system_code_ok|by apply evm_code_ok]. }
    destruct (match dispatch _ _ _ _ _ _ _ _ with Some r => r | None => _ end) as [[s1 x]| |]; [|done|done].
    injection E as <- _. exact (Q s1 x eq_refl).
  Qed.
  Lemma loop_code_ok evm limit s txs g f s' rs g' f' : code_ok s -> exec_loop evm limit s txs g f = Ok (s', rs, g', f') -> code_ok s'.
  Proof.
    revert s g f rs g' f'. induction txs as [|t txs IH]; intros s g f rs g' f' C E; cbn in E; [by injection E as <- _ _ _|].
    destruct (exec_tx evm limit s t) as [[s1 x]| |] eqn:T; [|done|done]. destruct (_ <? _); [done|].
    destruct (exec_loop evm limit s1 txs _ _) as [[[[s2 xs] g2] f2]| |] eqn:L; [|done|done]. injection E as <- _ _ _.
    eapply IH; [|exact L]. by eapply tx_code_ok.
  Qed.
  Lemma credit_code_ok s l m : code_ok s -> credit (xs_acc s) l = Ok m -> code_ok (set_acc s m).
  Proof.
    intros C. assert (G : forall m0, code_ok (set_acc s m0) -> forall m, credit m0 l = Ok m -> code_ok (set_acc s m)).
    { clear m. induction l as [|[a v] l IH]; intros m0 C0 m E; cbn in E; [by injection E as <-|].
      destruct (v =? 0); [by eapply IH|]. destruct (U256_MOD <=? _); [done|]. eapply IH; [|exact E].
      apply (code_ok_save (set_acc s m0) a (Acc (a_nonce (get_account m0 a)) (a_balance (get_account m0 a) + v) (a_storage (get_account m0 a)) (a_code (get_account m0 a))) C0).
      cbn [a_code]. exact (get_code (set_acc s m0) a C0). }
    apply G. destruct s; exact C.
  Qed.
  (** Every block keeps the code table complete; a chain that starts without accounts therefore always has it complete. *)
  Theorem C71_block_codes : forall evm s txs vals s' gas rs, code_ok s -> exec_block evm s txs vals = Ok (s', gas, rs) -> code_ok s'.
  Proof.
    intros evm s txs vals s' gas rs C E. unfold ExecModel.exec_block in E. cbn zeta in E.
    destruct (contract_limit s) as [limit| |]; [|done|done].
    destruct (exec_loop evm limit s txs 0 0) as [[[[s1 rs1] g1] f1]| |] eqn:L; [|done|done].
    pose proof (loop_code_ok _ _ _ _ _ _ _ _ _ _ C L) as C1.
    destruct (if c_number (xs_ctx s) =? 0 then _ else _) as [l| |]; [|done|done].
    destruct (credit _ _) as [m| |] eqn:Cr; [|done|done]. pose proof (credit_code_ok _ _ _ C1 Cr) as C2.
    destruct (meta_after_block _ _ _ _ _) as [[mm hf]| |]; [|done|done]. injection E as <- _ _.
    destruct (_ =? 0); [exact C2|]. apply code_ok_ops. exact C2.
  Qed.
  Theorem C71_no_accounts : forall s, xs_acc s = ∅ -> xs_code s = ∅ -> code_ok s /\ sees s (fun _ => None).
  Proof.
    intros s A B. split; [split; intros ? ?; by rewrite ?A, ?B, lookup_empty|].
    intros a. unfold be_exists, be_basic, be_code, be_storage. by rewrite A, lookup_empty.
  Qed.

  (** The interpreter works with the contract size limit in force at the start of the block: the configured one under the
      Andromeda hardfork, Ethereum's otherwise.  Nothing else about its behaviour under other limits matters. *)
  Definition size_limit_in_force (s : xstate) (l : N) : Prop :=
    (enabled ANDROMEDA (xs_hf s) = true /\ exists c, get_consensus_config (xs_meta s) = Ok c /\ l = cf_max_contract c) \/
    (enabled ANDROMEDA (xs_hf s) = false /\ l = 0x6000).
  Theorem C71_size_limit : forall evm evm' s txs vals l, size_limit_in_force s l ->
    (forall s t, evm s l t = evm' s l t) -> exec_block evm s txs vals = exec_block evm' s txs vals.
  Proof.
    intros evm evm' s txs vals l H A. unfold ExecModel.exec_block. cbn zeta.
    assert (CL : contract_limit s = Ok l).
    { unfold contract_limit. destruct H as [(-> & c & -> & ->)|(-> & ->)]; done. }
    rewrite CL.
    assert (TX : forall s t, exec_tx evm l s t = exec_tx evm' l s t).
    { intros s0 t. unfold ExecModel.exec_tx. destruct (dispatch _ _ _ _ _ _ _ _); [done|]. unfold evm_exec. by rewrite A. }
    assert (LP : forall txs s g f, exec_loop evm l s txs g f = exec_loop evm' l s txs g f).
    { induction txs0 as [|t r IH]; intros s0 g f; [done|]. cbn. rewrite TX. destruct (exec_tx evm' l s0 t) as [[]| |]; [|done|done].
      destruct (_ <? _); [done|]. by rewrite IH. }
    by rewrite LP.
  Qed.
End Props.

(** Hashes of earlier blocks: of the last 256 blocks, nothing else. *)
Theorem C71_block_hash : forall current get n, current < 2^64 ->
  be_block_hash current get n =
    if decide (n < current /\ current <= n + 256) then match get n with Some h => h | None => repeat 0 32 end else repeat 0 32.
Proof.
  intros cur get n L. unfold be_block_hash. destruct (N.leb_spec cur n) as [G|G].
  - rewrite decide_False by lia. done.
  - destruct (N.ltb_spec 256 (cur - n)) as [F|F]; [by rewrite decide_False by lia|].
    rewrite decide_True by lia. rewrite N.mod_small by lia. by destruct (get n).
Qed.

(* ------------------------------------------------------------------------ *)
(** * A concrete case *)
Definition toy_keccak (b : bytes) : bytes := match b with [] => NIL_CODE | _ => 1 :: b end.
Definition ex_ops : list apply_op :=
  [AModify alice 1 50 (Some [96; 0]) [([1], 7); ([2], 8)] false;
   AModify bob 0 9 None [] false;
   AModify alice 2 40 None [([1], 0); ([3], 1)] false;
   ADelete bob].
Definition s_empty : xstate := XState ∅ ∅ [] (XCtx 1 [] 0 []) ex_meta ∅ 0.
Example C71_example :
  let s := apply_ops toy_keccak s_empty ex_ops [] true in
  code_ok toy_keccak s_empty /\ sees s_empty (fun _ => None) /\
  be_basic s alice = (2, 40) /\ be_code s alice = [96; 0] /\ be_storage s alice [1] = 0 /\ be_storage s alice [2] = 8 /\
  be_storage s alice [3] = 1 /\ be_exists s bob = false /\ be_exists s alice = true.
Proof.
  split; [by apply C71_no_accounts|]. split; [by apply (C71_no_accounts toy_keccak)|]. vm_compute. done.
Qed.

Print Assumptions C71_apply.
Print Assumptions C71_empty_kept.
Print Assumptions C71_transaction.
Print Assumptions C71_block_codes.
Print Assumptions C71_no_accounts.
Print Assumptions C71_size_limit.
Print Assumptions C71_block_hash.
