(** The backend over tries (WorldModel.v) is the backend over maps (ExecModel.v, BackendModel.v): invariants and steps. *)
From Verif Require Import Bytes BytesProofs Rlp RlpProofs TxModel TxSpec ExecModel BackendModel TrieModel TrieProofs TrieCodec TrieOps TrieDelete TriePaths TrieProps TrieProps2 WorldModel.
From Verif Require Web3Model Web3Props.
From stdpp Require Import base gmap list.
From Coq Require Import NArith List Lia.
Local Open Scope N_scope.

(* ================= specification ================= *)
(** What is done to a state: an operation of the EVM's outcome, a change of nonce and balance by get_account and save_account, the end of a block. *)
Inductive wop := WApply (del : bool) (op : apply_op) | WSet (a : bytes) (nonce balance : N) | WCommit.
Definition aop_ok (op : apply_op) : Prop :=
  match op with
  | AModify a n b c l r => n < 2 ^ 256 /\ b < 2 ^ 256 /\ Forall (fun kv => snd kv < 2 ^ 256) l
  | ADelete _ => True
  end.
Definition wop_ok (o : wop) : Prop :=
  match o with WApply _ op => aop_ok op | WSet _ n b => n < 2 ^ 256 /\ b < 2 ^ 256 | WCommit => True end.
Section Spec.
  Variable keccak : bytes -> bytes.
  (** on accounts in maps *)
  Definition spec1 (s : xstate) (o : wop) : xstate :=
    match o with
    | WApply del op => apply_one keccak del s op
    | WSet a n b => let x := get_account (xs_acc s) a in save_account s a (Acc n b (a_storage x) (a_code x))
    | WCommit => s
    end.
  Definition spec (s : xstate) (ops : list wop) : xstate := fold_left spec1 ops s.
  (** on accounts in tries *)
  Definition w_do (f : nat) (w : world) (o : wop) : outcome world :=
    match o with
    | WApply del op => w_apply keccak f del w op
    | WSet a n b => let! x := w_account keccak f w a in w_save keccak f w a (Acct n b (Web3Model.ac_root x) (Web3Model.ac_code x))
    | WCommit => let! r := w_commit keccak w in Ok (snd r)
    end.
  Fixpoint w_run (f : nat) (w : world) (ops : list wop) : outcome world :=
    match ops with
    | [] => Ok w
    | o :: r => let! w' := w_do f w o in w_run f w' r
    end.
  (** everything that is hashed on the way: addresses, storage keys, codes and trie nodes *)
  Definition hashed1 (f : nat) (w : world) (o : wop) : list bytes :=
    match o with
    | WApply _ (AModify a _ _ c l r) =>
        a :: match c with Some x => [x] | None => [] end ++ map fst l
        ++ match (let! old := w_account keccak f w a in storage_after keccak f w old l r) with
           | Ok T => map snd (commit_writes keccak (tr_root T))
           | _ => []
           end
    | WApply _ (ADelete a) => [a]
    | WSet a _ _ => [a]
    | WCommit => map snd (commit_writes keccak (tr_root (w_trie w)))
    end.
  Fixpoint hashed (f : nat) (w : world) (ops : list wop) : list bytes :=
    match ops with
    | [] => []
    | o :: r => hashed1 f w o ++ match w_do f w o with Ok w' => hashed f w' r | _ => [] end
    end.
End Spec.
Definition nothing : world := w_new (fun _ => None) (fun _ => None).
Definition blank (s : xstate) : Prop := xs_acc s = ∅ /\ xs_code s = ∅.

(* ================= proofs ================= *)
Lemma RLP_NULL_fixed : fixed 32 RLP_NULL.
Proof. split; [|reflexivity]. apply be_fixed_wf. Qed.
Lemma NIL_fixed : fixed 32 NIL_CODE.
Proof. split; [|reflexivity]. apply be_fixed_wf. Qed.
Lemma enc_uint_nonempty n : enc_uint n <> [].
Proof.
  unfold enc_uint. set (b := be_min n). clearbody b. assert (H : forall l, enc_header 128 l ++ b <> []).
  { intros l X. apply (f_equal (@length N)) in X. rewrite app_length in X. pose proof (enc_header_length_pos 128 l). cbn in X. lia. }
  unfold enc_str. destruct b as [|x [|y b]]; try apply H. destruct (x <? 128); [discriminate|apply H].
Qed.
Lemma enc_uint_word v : v < 2 ^ 256 -> wf_bytes (enc_uint v) /\ len (enc_uint v) < 2 ^ 32.
Proof.
  intros V. pose proof (Web3Props.be_min_short v V) as B. unfold enc_uint. split; [apply enc_str_wf; [apply be_min_wf|unfold len; lia]|].
  pose proof (Web3Props.enc_str_short (be_min v) ltac:(lia)). lia.
Qed.
Lemma dec_word v : v < 2 ^ 256 -> dec_uint 32 (enc_uint v) = Some v.
Proof. intros V. apply dec_uint_enc; [exact V|lia]. Qed.

Section Proofs.
  Variable keccak : bytes -> bytes.
  Hypothesis keccak_32 : forall b, length (keccak b) = 32%nat.
  Hypothesis keccak_wf : forall b, wf_bytes (keccak b).
  Hypothesis keccak_null : keccak [128] = RLP_NULL.
  Variable f : nat.
  Hypothesis Lf : (fuel 32 <= f)%nat.
  Variable U : bytes -> Prop.
  Hypothesis IU : injective_on keccak U.
  Hypothesis Unull : U [128].
  Local Notation encT := (encT keccak).
  Local Notation shallow := (shallow keccak).
  Local Notation stored := (stored keccak).
  Local Notation honest := (honest keccak).
  Local Notation good := (good keccak digest_key 32 U).
  Local Notation holds := (holds digest_key 32).

  Lemma dk b : digest_key (keccak b).
  Proof. split; [apply keccak_32|apply keccak_wf]. Qed.
  Lemma ds : N.of_nat (2 * 32 + 1) <= 2 ^ 30.
  Proof. vm_compute. discriminate. Qed.
  Lemma keccak_beqb a b : U a -> U b -> beqb (keccak a) (keccak b) = beqb a b.
  Proof.
    intros A B. destruct (beqb a b) eqn:E; [apply beqb_eq in E; subst; apply beqb_refl|].
    apply beqb_neq. intros X. apply IU in X; auto. subst. now rewrite beqb_refl in E.
  Qed.

  (* ---------------- maps in tries ---------------- *)
  (** The trie holds, under the hashes of keys, the numbers of [g]. *)
  Definition slots (mu : bytes -> option bytes) (g : gmap bytes N) : Prop :=
    (forall k, U k -> mu (keccak k) = enc_uint <$> g !! k) /\ (forall h, mu h <> None -> exists k, U k /\ h = keccak k)
    /\ (forall k v, g !! k = Some v -> U k /\ 0 < v < 2 ^ 256).
  Definition slots_ok (db : database) (root : bytes) (g : gmap bytes N) : Prop :=
    exists u mu, holds u mu /\ root = keccak (encT u) /\ (u = TE \/ (db root = Some (encT u) /\ stored db u)) /\ slots mu g.
  Lemma holds_TE mu : holds TE mu -> forall b, mu (keccak b) = None.
  Proof. intros (_ & A & _) b. rewrite <- A by apply dk. reflexivity. Qed.
  Lemma slots_empty db : slots_ok db RLP_NULL ∅.
  Proof.
    exists TE, (fun _ => None). split; [split; [now left|split; [reflexivity|now intros q _ X]]|]. split; [symmetry; exact keccak_null|]. split; [now left|].
    split; [intros k _; now rewrite lookup_empty|]. split; [now intros h X|]. intros k v X. rewrite lookup_empty in X. discriminate X.
  Qed.
  Lemma slots_mono db db' root g : extends db db' -> slots_ok db root g -> slots_ok db' root g.
  Proof.
    intros X (u & mu & H & R & S & M). exists u, mu. split; [exact H|]. split; [exact R|]. split; [|exact M].
    destruct S as [S|[G S]]; [now left|right]. split; [now apply X|eapply stored_mono; eauto].
  Qed.
  Lemma good_from db u mu : honest U db -> holds u mu -> stored db u -> db (keccak (encT u)) = Some (encT u) ->
    trie_from db (keccak (encT u)) = Ok (mktrie (shallow u) db) /\ good (mktrie (shallow u) db) u mu.
  Proof.
    intros H HO S G. split.
    - unfold trie_from. rewrite G. cbn [opt_err obnd]. rewrite (decode_ok keccak keccak_32 keccak_wf u _ (proj1 HO) ds). reflexivity.
    - split; [exact H|]. split; [intros h; apply shallow_not_hash|]. split; [now apply rep_shallow|exact HO].
  Qed.
  Lemma in_U db u : honest U db -> (u = TE \/ (db (keccak (encT u)) = Some (encT u) /\ stored db u)) -> forall x, In x (encT u :: below keccak u) -> U x.
  Proof.
    intros H [->|[G S]] x X; [|now apply (committed_in keccak keccak_32 keccak_wf U u db)]. destruct X as [<-|[]]. exact Unull.
  Qed.
  Lemma same_root db db' u u' mu mu' : honest U db -> honest U db' -> holds u mu -> holds u' mu' ->
    (u = TE \/ (db (keccak (encT u)) = Some (encT u) /\ stored db u)) -> (u' = TE \/ (db' (keccak (encT u')) = Some (encT u') /\ stored db' u')) ->
    keccak (encT u) = keccak (encT u') -> u = u'.
  Proof.
    intros H H' HO HO' S S' E. apply (bind_root keccak keccak_32 keccak_wf U u u' _ _ IU (proj1 HO) (proj1 HO') ds ds); [now apply (in_U db)|now apply (in_U db')|exact E].
  Qed.
  Lemma good_empty db : honest U db -> good (trie_new db) TE (fun _ => None).
  Proof. intros H. split; [exact H|]. split; [easy|]. split; [constructor|]. split; [now left|]. split; [reflexivity|now intros q _ X]. Qed.
  Lemma slots_open db root g : honest U db -> slots_ok db root g ->
    exists T u mu, (if beqb root RLP_NULL then Ok (trie_new db) else mpt_from_root db root) = Ok T /\ tr_db T = db /\ good T u mu /\ slots mu g /\ root = keccak (encT u).
  Proof.
    intros H (u & mu & HO & -> & S & M). destruct (beqb (keccak (encT u)) RLP_NULL) eqn:E.
    - apply beqb_eq in E. assert (u = TE) as ->.
      { apply (same_root db db u TE mu (fun _ => None)); auto; [now split; [left|split; [|intros q _ X]]|]. rewrite E. symmetry. exact keccak_null. }
      exists (trie_new db), TE, mu. split; [reflexivity|]. split; [reflexivity|]. split; [|split; [exact M|reflexivity]].
      split; [exact H|]. split; [easy|]. split; [constructor|exact HO].
    - destruct S as [->|[G S]]; [exfalso; change (encT TE) with [128] in E; rewrite keccak_null, beqb_refl in E; discriminate E|].
      destruct (good_from db u mu H HO S G) as [F G']. exists (mktrie (shallow u) db), u, mu. split; [exact F|]. split; [reflexivity|]. split; [exact G'|]. split; [exact M|reflexivity].
  Qed.

  Lemma write_ok : forall l T u mu g, good T u mu -> slots mu g -> (forall k, In k (map fst l) -> U k) -> Forall (fun kv => snd kv < 2 ^ 256) l ->
    exists T' u' mu', storage_write keccak f T l = Ok T' /\ tr_db T' = tr_db T /\ good T' u' mu' /\ slots mu' (write_slots g l).
  Proof.
    induction l as [|[k v] l IH]; intros T u mu g G M A B.
    - exists T, u, mu. split; [reflexivity|]. split; [reflexivity|]. split; [exact G|exact M].
    - inversion B as [|? ? V B']; subst. cbn [snd] in V. assert (Uk : U k) by (apply A; now left). cbn [storage_write].
      change (write_slots g ((k, v) :: l)) with (write_slots (if v =? 0 then delete k g else <[k := v]> g) l).
      destruct M as (M1 & M2 & M3). destruct (N.eqb_spec v 0) as [Z|Z].
      + destruct (good_remove keccak keccak_32 keccak_wf digest_key 32 f digest_keys Lf U T u mu (keccak k) G (dk k)) as (T1 & u1 & E1 & D1 & G1).
        unfold mpt_remove. rewrite E1. cbn [unwrap obnd fst].
        destruct (IH T1 u1 _ (delete k g) G1) as (T2 & u2 & mu2 & E2 & D2 & G2 & S2); auto.
        * split; [|split].
          -- intros x Ux. rewrite keccak_beqb by auto. destruct (beqb x k) eqn:Q; [apply beqb_eq in Q; subst; now rewrite lookup_delete|].
             rewrite lookup_delete_ne; [now apply M1|]. intros ->. now rewrite beqb_refl in Q.
          -- intros h X. destruct (beqb h (keccak k)) eqn:Q; [easy|]. now apply M2.
          -- intros x w X. apply lookup_delete_Some in X as [_ X]. now apply M3.
        * intros x X. apply A. now right.
        * exists T2, u2, mu2. split; [exact E2|]. split; [congruence|]. split; [exact G2|exact S2].
      + destruct (enc_uint_word v V) as [W L].
        destruct (good_insert keccak keccak_32 keccak_wf digest_key 32 f digest_keys Lf U T u mu (keccak k) (enc_uint v) G (dk k) W L) as (T1 & u1 & E1 & D1 & G1).
        unfold mpt_insert. rewrite E1. cbn [unwrap obnd].
        assert (P : forall x, after1 mu (Put (keccak k) (enc_uint v)) x = if beqb x (keccak k) then Some (enc_uint v) else mu x).
        { intros x. cbn [after1]. destruct (enc_uint v) eqn:Q; [now apply enc_uint_nonempty in Q|reflexivity]. }
        destruct (IH T1 u1 _ (<[k := v]> g) G1) as (T2 & u2 & mu2 & E2 & D2 & G2 & S2); auto.
        * split; [|split].
          -- intros x Ux. rewrite P, keccak_beqb by auto. destruct (beqb x k) eqn:Q; [apply beqb_eq in Q; subst; now rewrite lookup_insert|].
             rewrite lookup_insert_ne; [now apply M1|]. intros ->. now rewrite beqb_refl in Q.
          -- intros h X. rewrite P in X. destruct (beqb h (keccak k)) eqn:Q; [apply beqb_eq in Q; now exists k|]. now apply M2.
          -- intros x w X. apply lookup_insert_Some in X as [[<- <-]|[_ X]]; [split; [exact Uk|lia]|]. now apply M3.
        * intros x X. apply A. now right.
        * exists T2, u2, mu2. split; [exact E2|]. split; [congruence|]. split; [exact G2|exact S2].
  Qed.

  (* ---------------- the state ---------------- *)
  Definition acc_ok (db : database) (raw : bytes) (x : account) : Prop :=
    exists root, raw = Web3Model.enc_acct (Acct (a_nonce x) (a_balance x) root (a_code x)) /\ slots_ok db root (a_storage x)
      /\ Web3Props.wf_acct (Acct (a_nonce x) (a_balance x) root (a_code x)).
  Definition accs (db : database) (m : bytes -> option bytes) (A : accounts) : Prop :=
    (forall a, U a -> match A !! a with Some x => exists raw, m (keccak a) = Some raw /\ acc_ok db raw x | None => m (keccak a) = None end)
    /\ (forall h, m h <> None -> exists a, U a /\ h = keccak a) /\ (forall a x, A !! a = Some x -> U a).
  Definition codes_in (w : world) (s : xstate) : Prop :=
    (forall h c, xs_code s !! h = Some c -> w_codes w h = Some c) /\ (forall h c, w_codes w h = Some c -> h = keccak c /\ U c)
    /\ (forall a x, xs_acc s !! a = Some x -> a_code x = NIL_CODE \/ exists c, xs_code s !! a_code x = Some c).
  Definition wrep (w : world) (s : xstate) : Prop :=
    exists t m, good (w_trie w) t m /\ accs (tr_db (w_trie w)) m (xs_acc s) /\ codes_in w s.

  Lemma acc_mono db db' raw x : extends db db' -> acc_ok db raw x -> acc_ok db' raw x.
  Proof. intros X (r & E & S & W). exists r. split; [exact E|]. split; [eapply slots_mono; eauto|exact W]. Qed.
  Lemma accs_mono db db' m A : extends db db' -> accs db m A -> accs db' m A.
  Proof.
    intros X (P & Q & R). split; [|split; [exact Q|exact R]]. intros a Ua. specialize (P a Ua). destruct (A !! a); [|exact P].
    destruct P as (raw & E & O). exists raw. split; [exact E|]. eapply acc_mono; eauto.
  Qed.
  Lemma good_mono T t m db' : extends (tr_db T) db' -> honest U db' -> good T t m -> good (mktrie (tr_root T) db') t m.
  Proof. intros X H (_ & P & R & O). split; [exact H|]. split; [exact P|]. split; [eapply rep_mono; eauto|exact O]. Qed.
  Lemma extends_refl db : extends db db.
  Proof. now intros h e. Qed.
  Lemma extends_trans a b c : extends a b -> extends b c -> extends a c.
  Proof. intros X Y h e E. now apply Y, X. Qed.
  Lemma enc_acct_ok x : Web3Props.wf_acct x -> wf_bytes (Web3Model.enc_acct x) /\ len (Web3Model.enc_acct x) < 2 ^ 32 /\ Web3Model.enc_acct x <> [].
  Proof.
    intros W. assert (W' := W). destruct W as (W1 & W2 & [W3 L3] & [W4 L4]). unfold Web3Model.enc_acct, enc_uint, enc_hash.
    pose proof (Web3Props.be_min_short _ W1) as B1. pose proof (Web3Props.be_min_short _ W2) as B2.
    pose proof (Web3Props.enc_str_short (be_min (Web3Model.ac_nonce x)) ltac:(lia)). pose proof (Web3Props.enc_str_short (be_min (Web3Model.ac_balance x)) ltac:(lia)).
    pose proof (Web3Props.enc_str_short (Web3Model.ac_root x) ltac:(lia)). pose proof (Web3Props.enc_str_short (Web3Model.ac_code x) ltac:(lia)).
    set (l := [enc_str (be_min (Web3Model.ac_nonce x)); enc_str (be_min (Web3Model.ac_balance x)); enc_str (Web3Model.ac_root x); enc_str (Web3Model.ac_code x)]).
    assert (C : len (concat l) <= 224). { unfold l. cbn [concat]. unfold len in *. rewrite !app_length. cbn [length]. lia. }
    split; [|split].
    - apply enc_list_wf; [|lia]. unfold l. repeat constructor; (apply enc_str_wf; [auto using be_min_wf|unfold len; lia]).
    - unfold len. rewrite enc_list_length. pose proof (enc_header_len 192 (len (concat l)) ltac:(lia)) as Hd. unfold len in *. lia.
    - intros X. apply (f_equal (@length N)) in X. rewrite enc_list_length in X. pose proof (enc_header_length_pos 192 (len (concat l))). cbn [length] in X. lia.
  Qed.
  Lemma read_raw T t m a : good T t m -> mpt_get keccak f T a = Ok (m (keccak a)).
  Proof. intros G. exact (good_get keccak keccak_32 keccak_wf digest_key 32 f digest_keys Lf U T t m (keccak a) G (dk a)). Qed.
  Lemma account_ok w t m A a : good (w_trie w) t m -> accs (tr_db (w_trie w)) m A -> U a ->
    exists root, let x := get_account A a in w_account keccak f w a = Ok (Acct (a_nonce x) (a_balance x) root (a_code x))
      /\ slots_ok (tr_db (w_trie w)) root (a_storage x) /\ Web3Props.wf_acct (Acct (a_nonce x) (a_balance x) root (a_code x)).
  Proof.
    intros G (P & _) Ua. specialize (P a Ua). unfold w_account, get_account. rewrite (read_raw _ t m a G). destruct (A !! a) as [x|]; cbn [default].
    - destruct P as (raw & -> & root & -> & S & W). exists root. cbn [from_option]. rewrite Web3Props.acct_roundtrip by exact W. split; [reflexivity|]. split; [exact S|exact W].
    - rewrite P. exists RLP_NULL. split; [reflexivity|]. split; [apply slots_empty|]. split; [reflexivity|]. split; [reflexivity|]. split; [apply RLP_NULL_fixed|apply NIL_fixed].
  Qed.
  Lemma put_ok T t m A a x raw : good T t m -> accs (tr_db T) m A -> U a -> acc_ok (tr_db T) raw x ->
    exists T' t' m', mpt_insert keccak f T a raw = Ok T' /\ tr_db T' = tr_db T /\ good T' t' m' /\ accs (tr_db T) m' (<[a := x]> A).
  Proof.
    intros G (P & Q & R) Ua O. assert (O' := O). destruct O as (root & E & S & W). destruct (enc_acct_ok _ W) as (B1 & B2 & B3). rewrite <- E in *.
    destruct (good_insert keccak keccak_32 keccak_wf digest_key 32 f digest_keys Lf U T t m (keccak a) raw G (dk a) B1 B2) as (T' & t' & E' & D' & G').
    assert (X : forall h, after1 m (Put (keccak a) raw) h = if beqb h (keccak a) then Some raw else m h) by (intros h; cbn [after1]; now destruct raw).
    exists T', t', (after1 m (Put (keccak a) raw)). split; [exact E'|]. split; [exact D'|]. split; [exact G'|]. split; [|split].
    - intros b Ub. rewrite X, keccak_beqb by auto. destruct (beqb b a) eqn:Z.
      + apply beqb_eq in Z. subst b. rewrite lookup_insert. now exists raw.
      + rewrite lookup_insert_ne; [now apply P|]. intros ->. now rewrite beqb_refl in Z.
    - intros h Y. rewrite X in Y. destruct (beqb h (keccak a)) eqn:Z; [apply beqb_eq in Z; now exists a|now apply Q].
    - intros b y Y. apply lookup_insert_Some in Y as [[<- _]|[_ Y]]; [exact Ua|now apply (R b y)].
  Qed.
  Lemma del_ok T t m A a : good T t m -> accs (tr_db T) m A -> U a ->
    exists T' t' m' b, mpt_remove keccak f T a = Ok (T', b) /\ tr_db T' = tr_db T /\ good T' t' m' /\ accs (tr_db T) m' (delete a A).
  Proof.
    intros G (P & Q & R) Ua. destruct (good_remove keccak keccak_32 keccak_wf digest_key 32 f digest_keys Lf U T t m (keccak a) G (dk a)) as (T' & t' & E' & D' & G').
    eexists T', t', _, _. split; [exact E'|]. split; [exact D'|]. split; [exact G'|]. split; [|split].
    - intros b Ub. rewrite keccak_beqb by auto. destruct (beqb b a) eqn:Z.
      + apply beqb_eq in Z. subst b. now rewrite lookup_delete.
      + rewrite lookup_delete_ne; [now apply P|]. intros ->. now rewrite beqb_refl in Z.
    - intros h Y. cbn beta in Y. destruct (beqb h (keccak a)) eqn:Z; [easy|now apply Q].
    - intros b y Y. apply lookup_delete_Some in Y as [_ Y]. now apply (R b y).
  Qed.

  Lemma modify_ok w s del a n b c l r : wrep w s -> aop_ok (AModify a n b c l r) -> (forall e, In e (hashed1 keccak f w (WApply del (AModify a n b c l r))) -> U e) ->
    exists w', w_modify keccak f w a n b c l r = Ok (w', snd (modify keccak s a n b c l r)) /\ wrep w' (fst (modify keccak s a n b c l r))
      /\ extends (tr_db (w_trie w)) (tr_db (w_trie w')) /\ (forall h c, w_codes w h = Some c -> w_codes w' h = Some c).
  Proof.
    intros (t & m & G & A & C1 & C2 & C3) (Bn & Bb & Bl) HU.
    assert (Ua : U a) by (apply HU; now left).
    assert (Uc : forall x, c = Some x -> U x) by (intros x ->; apply HU; right; now left).
    assert (Ul : forall k, In k (map fst l) -> U k) by (intros k K; apply HU; right; apply in_app_iff; right; apply in_app_iff; now left).
    assert (Ut : forall e, In e (match (let! old := w_account keccak f w a in storage_after keccak f w old l r) with Ok T => map snd (commit_writes keccak (tr_root T)) | _ => [] end) -> U e)
      by (intros e E; apply HU; right; apply in_app_iff; right; apply in_app_iff; now right).
    clear HU. assert (H : honest U (tr_db (w_trie w))) by apply G.
    destruct (account_ok w t m (xs_acc s) a G A Ua) as (root & EA & SA & WA). cbv zeta in EA, SA, WA.
    unfold w_modify. rewrite EA in *. cbn [obnd] in *. unfold modify. set (x := get_account (xs_acc s) a) in *.
    assert (OP : exists T u mu, storage_open (tr_db (w_trie w)) (Acct (a_nonce x) (a_balance x) root (a_code x)) r = Ok T /\ tr_db T = tr_db (w_trie w) /\ good T u mu
      /\ slots mu (if r then ∅ else a_storage x)).
    { unfold storage_open. cbn [Web3Model.ac_root]. destruct r.
      - rewrite beqb_refl. exists (trie_new (tr_db (w_trie w))), TE, (fun _ => None). split; [reflexivity|]. split; [reflexivity|]. split; [now apply good_empty|].
        split; [intros k _; now rewrite lookup_empty|]. split; [now intros h X|]. intros k v X. rewrite lookup_empty in X. discriminate X.
      - destruct (slots_open _ root (a_storage x) H SA) as (T & u & mu & E & D & G' & M & _). exists T, u, mu. split; [|split; [exact D|split; [exact G'|exact M]]].
        destruct (beqb root RLP_NULL); [exact E|]. unfold unwrap. now rewrite E. }
    destruct OP as (T & u & mu & EO & D0 & G0 & M0). unfold storage_after in *. rewrite EO in *. cbn [obnd] in *.
    destruct (write_ok l T u mu _ G0 M0 Ul Bl) as (T1 & u1 & mu1 & E1 & D1 & G1 & M1). rewrite E1 in *. cbn [obnd] in *.
    destruct (good_commit keccak keccak_32 keccak_wf digest_key 32 f digest_keys Lf U T1 u1 mu1 IU G1 Ut) as (T2 & E2 & G2 & X2 & R2 & S2 & DB2).
    unfold mpt_commit. rewrite E2. cbn [unwrap obnd fst snd].
    assert (X : extends (tr_db (w_trie w)) (tr_db T2)) by (rewrite <- D0, <- D1; exact X2).
    assert (H2 : honest U (tr_db T2)) by apply G2.
    set (g := write_slots (if r then ∅ else a_storage x) l) in *.
    assert (SO : slots_ok (tr_db T2) (keccak (encT u1)) g).
    { exists u1, mu1. split; [apply G1|]. split; [reflexivity|]. split; [right; split; [exact DB2|exact S2]|exact M1]. }
    cbn [Web3Model.ac_code].
    assert (K : exists codes codes' ch,
      (match c with Some y => if beqb (keccak y) (a_code x) then (w_codes w, a_code x) else ((fun h => if beqb h (keccak y) then Some y else w_codes w h), keccak y)
       | None => (w_codes w, a_code x) end) = (codes, ch)
      /\ (match c with Some y => if beqb (keccak y) (a_code x) then (xs_code s, a_code x) else (<[keccak y := y]> (xs_code s), keccak y)
       | None => (xs_code s, a_code x) end) = (codes', ch)
      /\ fixed 32 ch /\ (forall h y, w_codes w h = Some y -> codes h = Some y) /\ (forall h y, codes' !! h = Some y -> codes h = Some y)
      /\ (forall h y, codes h = Some y -> h = keccak y /\ U y) /\ (ch = NIL_CODE \/ exists y, codes' !! ch = Some y) /\ (forall h y, xs_code s !! h = Some y -> exists z, codes' !! h = Some z)).
    { assert (OLD : fixed 32 (a_code x)) by apply WA.
      assert (HAS : a_code x = NIL_CODE \/ exists y, xs_code s !! a_code x = Some y).
      { unfold x, get_account. destruct (xs_acc s !! a) as [y|] eqn:E; [exact (C3 a y E)|now left]. }
      destruct c as [y|]; [destruct (beqb (keccak y) (a_code x)) eqn:Q|].
      - exists (w_codes w), (xs_code s), (a_code x). repeat (split; [try reflexivity; try exact OLD; auto|]); eauto.
      - exists (fun h => if beqb h (keccak y) then Some y else w_codes w h), (<[keccak y := y]> (xs_code s)), (keccak y).
        split; [reflexivity|]. split; [reflexivity|]. split; [split; [apply keccak_wf|apply keccak_32]|].
        assert (Uy : U y) by now apply Uc.
        split; [|split; [|split; [|split]]].
        + intros h z Z. destruct (beqb h (keccak y)) eqn:HQ; [|exact Z]. apply beqb_eq in HQ. subst h. destruct (C2 _ _ Z) as [E Uz]. apply IU in E; auto. now subst.
        + intros h z Z. apply lookup_insert_Some in Z as [[<- <-]|[NE Z]]; [now rewrite beqb_refl|]. rewrite beqb_neq by congruence. now apply C1.
        + intros h z Z. destruct (beqb h (keccak y)) eqn:HQ; [apply beqb_eq in HQ; injection Z as <-; now split|now apply C2].
        + right. exists y. now rewrite lookup_insert.
        + intros h z Z. destruct (decide (keccak y = h)) as [<-|NE]; [exists y; now rewrite lookup_insert|exists z; now rewrite lookup_insert_ne].
      - exists (w_codes w), (xs_code s), (a_code x). repeat (split; [try reflexivity; try exact OLD; auto|]); eauto. }
    destruct K as (codes & codes' & ch & K1 & K2 & F & Kw & Kc & Kh & Kn & Kg). rewrite K1, K2. cbn [fst snd].
    assert (AO : acc_ok (tr_db T2) (Web3Model.enc_acct (Acct n b (keccak (encT u1)) ch)) (Acc n b g ch)).
    { exists (keccak (encT u1)). split; [reflexivity|]. split; [exact SO|]. split; [exact Bn|]. split; [exact Bb|]. split; [split; [apply keccak_wf|apply keccak_32]|exact F]. }
    assert (G3 : good (mktrie (tr_root (w_trie w)) (tr_db T2)) t m) by (apply good_mono; auto).
    destruct (put_ok (mktrie (tr_root (w_trie w)) (tr_db T2)) t m (xs_acc s) a (Acc n b g ch) _ G3 (accs_mono _ _ _ _ X A) Ua AO) as (T4 & t4 & m4 & E4 & D4 & G4 & A4).
    rewrite E4. cbn [unwrap obnd tr_db] in *. exists (World T4 codes). split; [reflexivity|]. cbn [w_trie w_codes]. rewrite D4. split; [|split; [exact X|exact Kw]].
    exists t4, m4. cbn [w_trie xs_acc]. rewrite D4. split; [exact G4|]. split; [exact A4|]. split; [exact Kc|]. split; [exact Kh|].
    cbn [xs_acc xs_code]. intros d y Y. apply lookup_insert_Some in Y as [[<- <-]|[_ Y]]; [exact Kn|]. destruct (C3 d y Y) as [Z|[z Z]]; [now left|right; eauto].
  Qed.
  (** One step and a run. *)
  Lemma step_ok w s o : wrep w s -> wop_ok o -> (forall e, In e (hashed1 keccak f w o) -> U e) ->
    exists w', w_do keccak f w o = Ok w' /\ wrep w' (spec1 keccak s o) /\ extends (tr_db (w_trie w)) (tr_db (w_trie w')) /\ (forall h c, w_codes w h = Some c -> w_codes w' h = Some c).
  Proof.
    intros R O HU. destruct o as [del [a n b c l r|a]|a n b|]; cbn [w_do spec1 w_apply apply_one].
    - destruct (modify_ok w s del a n b c l r R O HU) as (w' & -> & R' & X & Y). cbn [obnd fst snd]. destruct (modify keccak s a n b c l r) as [s' e]. cbn [fst snd] in *.
      destruct (e && del); [|now exists w']. destruct R' as (t & m & G & A & C1 & C2 & C3).
      assert (Ua : U a) by (apply HU; now left).
      destruct (del_ok (w_trie w') t m (xs_acc s') a G A Ua) as (T' & t' & m' & z & -> & D & G' & A'). cbn [unwrap obnd fst].
      exists (World T' (w_codes w')). cbn [w_trie w_codes]. rewrite D. split; [reflexivity|]. split; [|split; [exact X|exact Y]].
      exists t', m'. cbn [w_trie set_acc xs_acc xs_code]. rewrite D. split; [exact G'|]. split; [exact A'|]. split; [exact C1|]. split; [exact C2|].
      intros d y Z. cbn in Z. apply lookup_delete_Some in Z as [_ Z]. exact (C3 d y Z).
    - destruct R as (t & m & G & A & C1 & C2 & C3). assert (Ua : U a) by (apply HU; now left).
      destruct (del_ok (w_trie w) t m (xs_acc s) a G A Ua) as (T' & t' & m' & z & -> & D & G' & A'). cbn [fst].
      exists (World T' (w_codes w)). cbn [w_trie w_codes]. rewrite D. split; [reflexivity|]. split; [|split; [apply extends_refl|auto]].
      exists t', m'. cbn [w_trie set_acc xs_acc xs_code]. rewrite D. split; [exact G'|]. split; [exact A'|]. split; [exact C1|]. split; [exact C2|].
      intros d y Z. cbn in Z. apply lookup_delete_Some in Z as [_ Z]. exact (C3 d y Z).
    - destruct R as (t & m & G & A & C1 & C2 & C3). assert (Ua : U a) by (apply HU; now left). destruct O as [Bn Bb].
      destruct (account_ok w t m (xs_acc s) a G A Ua) as (root & -> & SA & WA). cbn [obnd Web3Model.ac_root Web3Model.ac_code]. unfold w_save.
      set (x := get_account (xs_acc s) a) in *.
      assert (AO : acc_ok (tr_db (w_trie w)) (Web3Model.enc_acct (Acct n b root (a_code x))) (Acc n b (a_storage x) (a_code x))).
      { exists root. split; [reflexivity|]. split; [exact SA|]. split; [exact Bn|]. split; [exact Bb|]. split; apply WA. }
      destruct (put_ok (w_trie w) t m (xs_acc s) a _ _ G A Ua AO) as (T' & t' & m' & -> & D & G' & A'). cbn [unwrap obnd].
      exists (World T' (w_codes w)). cbn [w_trie w_codes]. rewrite D. split; [reflexivity|]. split; [|split; [apply extends_refl|auto]].
      exists t', m'. cbn [w_trie save_account set_acc xs_acc xs_code]. rewrite D. split; [exact G'|]. split; [exact A'|]. split; [exact C1|]. split; [exact C2|].
      intros d y Z. cbn in Z. apply lookup_insert_Some in Z as [[<- <-]|[_ Z]]; [|exact (C3 d y Z)]. cbn [a_code]. unfold x, get_account. destruct (xs_acc s !! a) as [y|] eqn:E; [exact (C3 a y E)|now left].
    - destruct R as (t & m & G & A & C). unfold w_commit, mpt_commit.
      destruct (good_commit keccak keccak_32 keccak_wf digest_key 32 f digest_keys Lf U (w_trie w) t m IU G HU) as (T2 & E2 & G2 & X2 & _). rewrite E2. cbn [unwrap obnd fst snd].
      exists (World T2 (w_codes w)). split; [reflexivity|]. cbn [w_trie w_codes]. split; [|split; [exact X2|auto]].
      exists t, m. split; [exact G2|]. split; [eapply accs_mono; eauto|exact C].
  Qed.
  Lemma run_ok : forall ops w s, wrep w s -> Forall wop_ok ops -> (forall e, In e (hashed keccak f w ops) -> U e) ->
    exists w', w_run keccak f w ops = Ok w' /\ wrep w' (spec keccak s ops) /\ extends (tr_db (w_trie w)) (tr_db (w_trie w')) /\ (forall h c, w_codes w h = Some c -> w_codes w' h = Some c).
  Proof.
    induction ops as [|o ops IH]; intros w s R F HU.
    - exists w. split; [reflexivity|]. split; [exact R|]. split; [apply extends_refl|auto].
    - inversion F as [|? ? O F']; subst. cbn [hashed] in HU.
      destruct (step_ok w s o R O) as (w1 & E1 & R1 & X1 & Y1); [intros e I; apply HU, in_app_iff; now left|]. rewrite E1 in HU.
      destruct (IH w1 (spec1 keccak s o) R1 F') as (w2 & E2 & R2 & X2 & Y2); [intros e I; apply HU, in_app_iff; now right|].
      exists w2. cbn [w_run]. rewrite E1. cbn [obnd]. split; [exact E2|]. split; [exact R2|]. split; [eapply extends_trans; eauto|auto].
  Qed.
  Lemma nothing_ok s : blank s -> wrep nothing s.
  Proof.
    intros [A C]. exists TE, (fun _ => None). split; [apply good_empty; easy|]. rewrite A. split; [|split; [|split]].
    - split; [intros a _; now rewrite lookup_empty|]. split; [now intros h X|]. intros a x X. rewrite lookup_empty in X. discriminate X.
    - intros h c X. rewrite C, lookup_empty in X. discriminate X.
    - intros h c X. discriminate X.
    - intros a x X. rewrite A, lookup_empty in X. discriminate X.
  Qed.

  (** The reads of the EVM. *)
  Definition reads (w : world) (s : xstate) (a k : bytes) : Prop :=
    w_exists keccak f w a = Ok (be_exists s a) /\ w_basic keccak f w a = Ok (be_basic s a) /\ w_code keccak f w a = Ok (be_code s a)
    /\ w_storage keccak f w a k = Ok (be_storage s a k).
  Lemma reads_ok w s a k : wrep w s -> U a -> U k -> reads w s a k.
  Proof.
    intros (t & m & G & (P & _) & C1 & C2 & C3) Ua Uk. specialize (P a Ua). assert (H : honest U (tr_db (w_trie w))) by apply G.
    unfold reads, w_exists, w_basic, w_code, w_storage, be_exists, be_basic, be_code, be_storage. rewrite (read_raw _ t m a G).
    destruct (xs_acc s !! a) as [x|] eqn:E; [|rewrite P; now repeat split].
    destruct P as (raw & -> & root & -> & S & W). cbn [unwrap obnd]. rewrite Web3Props.acct_roundtrip by exact W. cbn [obnd opt_panic Web3Model.ac_nonce Web3Model.ac_balance Web3Model.ac_root Web3Model.ac_code].
    split; [reflexivity|]. split; [reflexivity|]. split.
    - change NIL_DATA with NIL_CODE. destruct (beqb (a_code x) NIL_CODE) eqn:Q; [reflexivity|]. destruct (C3 a x E) as [Z|[c Z]]; [rewrite Z, beqb_refl in Q; discriminate Q|].
      now rewrite Z, (C1 _ _ Z).
    - destruct (slots_open _ root (a_storage x) H S) as (T & u & mu & EO & D & GT & (M1 & _ & M3) & RT). destruct (beqb root RLP_NULL).
      + injection EO as <-. pose proof (read_raw _ u mu k GT) as RR. cbn in RR. rewrite M1 in RR by exact Uk.
        assert (Z : mpt_get keccak f (trie_new (tr_db (w_trie w))) k = Ok None).
        { rewrite (read_raw _ TE (fun _ => None) k); [reflexivity|]. now apply good_empty. }
        rewrite (read_raw _ u mu k GT), M1 in Z by exact Uk. destruct (a_storage x !! k); [discriminate Z|reflexivity].
      + rewrite EO, (read_raw _ u mu k GT), M1 by exact Uk. destruct (a_storage x !! k) as [v|] eqn:V; [|reflexivity]. cbn [fmap option_fmap option_map]. rewrite dec_word by apply (M3 k v V). reflexivity.
  Qed.
End Proofs.
