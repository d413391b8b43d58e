(** C94: accounts and storage kept in tries behave as maps, the state root commits to them, old states can be opened again.
    C95: eth_getStorageAt and eth_getProof answer from the state under a state root, with proofs that verify. *)
From Verif Require Import Bytes BytesProofs Rlp RlpProofs TxModel TxSpec ExecModel BackendModel Keccak TrieModel TrieProofs TrieCodec TrieOps TrieDelete TriePaths TrieProps TrieProps2 WorldModel WorldProofs.
From Verif Require Web3Model Web3Props BackendProps.
From stdpp Require Import base gmap list.
From Coq Require Import NArith List Lia.
Local Open Scope N_scope.

Section Props.
  Variable keccak : bytes -> bytes.
  Hypothesis keccak_32 : forall b, length (keccak b) = 32%nat.
  Hypothesis keccak_wf : forall b, wf_bytes (keccak b).
  Hypothesis keccak_null : keccak [128] = RLP_NULL.
  Variable f : nat.
  Hypothesis Lf : (fuel 32 <= f)%nat.
  Local Notation encT := (encT keccak).
  Local Notation shallow := (shallow keccak).
  Local Notation stored := (stored keccak).
  Local Notation honest := (honest keccak).
  Local Notation good := (good keccak digest_key 32).
  Local Notation holds := (holds digest_key 32).
  Local Notation apart := (tells_apart keccak).
  Local Notation w_run := (w_run keccak f).
  Local Notation hashed := (hashed keccak f).
  Local Notation spec := (spec keccak).
  Local Notation reads := (reads keccak f).
  Local Notation wrep := (wrep keccak).
  Local Notation accs := (accs keccak).
  Local Notation codes_in := (codes_in keccak).

  (** The state root after some operations. *)
  Definition state_root (ops : list wop) : outcome bytes :=
    let! w := w_run nothing ops in let! r := w_commit keccak w in Ok (fst r).

  Lemma hashed_app w a b w' : w_run w a = Ok w' -> hashed w (a ++ b) = hashed w a ++ hashed w' b.
  Proof.
    revert w. induction a as [|o a IH]; intros w E; [now injection E as ->|]. cbn [app WorldProofs.hashed]. cbn [WorldProofs.w_run] in E.
    destruct (w_do keccak f w o) as [w1| |]; cbn [obnd] in E; try discriminate E. rewrite (IH w1 E). now rewrite app_assoc.
  Qed.
  Lemma hashed_pre w a b e : In e (hashed w a) -> In e (hashed w (a ++ b)).
  Proof.
    revert w. induction a as [|o a IH]; intros w I; [easy|]. cbn [app WorldProofs.hashed] in *. apply in_app_iff in I as [I|I]; apply in_app_iff; [now left|right].
    destruct (w_do keccak f w o); [now apply IH|easy|easy].
  Qed.
  Lemma run_app w a b : w_run w (a ++ b) = let! w' := w_run w a in w_run w' b.
  Proof. revert w. induction a as [|o a IH]; intros w; [reflexivity|]. cbn [app WorldProofs.w_run]. destruct (w_do keccak f w o); cbn [obnd]; auto. Qed.

  (** A state that was committed and after which more was done. *)
  Definition held (U : bytes -> Prop) (s : xstate) (r : bytes) (w2 : world) (t : tree) (m : bytes -> option bytes) : Prop :=
    r = keccak (encT t) /\ honest U (tr_db (w_trie w2)) /\ holds t m /\ stored (tr_db (w_trie w2)) t /\ tr_db (w_trie w2) r = Some (encT t)
    /\ accs U (tr_db (w_trie w2)) m (xs_acc s) /\ codes_in U w2 s.
  Lemma committed_then U s0 ops1 ops2 : injective_on keccak U -> U [128] -> blank s0 -> Forall wop_ok ops1 -> Forall wop_ok ops2 ->
    (forall e, In e (hashed nothing (ops1 ++ WCommit :: ops2)) -> U e) ->
    exists r w2 t m, state_root ops1 = Ok r /\ w_run nothing (ops1 ++ WCommit :: ops2) = Ok w2 /\ held U (spec s0 ops1) r w2 t m.
  Proof.
    intros IU Un B F1 F2 A.
    destruct (run_ok keccak keccak_32 keccak_wf keccak_null f Lf U IU Un ops1 nothing s0 (nothing_ok keccak U s0 B) F1) as (w1 & E1 & (t & m & G1 & A1 & C1) & _).
    { intros e I. apply A. now apply hashed_pre. }
    rewrite (hashed_app _ _ _ _ E1) in A.
    destruct (good_commit keccak keccak_32 keccak_wf digest_key 32 f digest_keys Lf U (w_trie w1) t m IU G1) as (T & ET & GT & XT & RT & ST & DT).
    { intros e I. apply A, in_app_iff. right. cbn [WorldProofs.hashed hashed1]. apply in_app_iff. now left. }
    set (w1' := World T (w_codes w1)).
    assert (EC : w_commit keccak w1 = Ok (keccak (encT t), w1')). { unfold w_commit, mpt_commit. rewrite ET. reflexivity. }
    assert (R1 : wrep U w1' (spec s0 ops1)). { exists t, m. split; [exact GT|]. split; [eapply accs_mono; eauto|exact C1]. }
    destruct (run_ok keccak keccak_32 keccak_wf keccak_null f Lf U IU Un ops2 w1' _ R1 F2) as (w2 & E2 & (t2 & m2 & G2 & A2 & C2) & X2 & Y2).
    { intros e I. apply A, in_app_iff. right. cbn [WorldProofs.hashed w_do]. rewrite EC. cbn [obnd snd]. apply in_app_iff. now right. }
    exists (keccak (encT t)), w2, t, m. split; [unfold state_root; rewrite E1; cbn [obnd]; now rewrite EC|]. split.
    { rewrite run_app, E1. cbn [obnd WorldProofs.w_run w_do]. rewrite EC. exact E2. }
    split; [reflexivity|]. split; [apply G2|]. split; [apply G1|]. split; [eapply stored_mono; eauto|]. split; [now apply X2|].
    split; [eapply accs_mono; [exact X2|eapply accs_mono; eauto]|]. destruct C1 as (P1 & P2 & P3). split; [|split; [apply C2|exact P3]].
    intros h c X. apply Y2. now apply P1.
  Qed.
  Lemma reopened U s r w2 t m : held U s r w2 t m -> exists w, w_open (tr_db (w_trie w2)) (w_codes w2) r = Ok w /\ wrep U w s.
  Proof.
    intros (-> & H & HO & S & D & A & C). destruct (good_from keccak keccak_32 keccak_wf U _ t m H HO S D) as [E G].
    exists (World (mktrie (shallow t) (tr_db (w_trie w2))) (w_codes w2)). unfold w_open, mpt_from_root. rewrite E. split; [reflexivity|].
    exists t, m. split; [exact G|]. split; [exact A|exact C].
  Qed.

  (* ---------------- C94 ---------------- *)
  (** Whatever is done to the accounts, nothing fails, and the EVM reads what the maps have. *)
  Theorem C94_refines : forall s0 ops, blank s0 -> Forall wop_ok ops -> apart ([128] :: hashed nothing ops) ->
    exists w, w_run nothing ops = Ok w /\ forall (a k : bytes), apart (a :: k :: [128] :: hashed nothing ops) -> reads w (spec s0 ops) a k.
  Proof.
    intros s0 ops B F TA. set (U0 := fun e => In e ([128] :: hashed nothing ops)).
    destruct (run_ok keccak keccak_32 keccak_wf keccak_null f Lf U0 TA (or_introl eq_refl) ops nothing s0 (nothing_ok keccak U0 s0 B) F) as (w & E & _).
    { intros e I. now right. }
    exists w. split; [exact E|]. intros a k TK. set (U := fun e => In e (a :: k :: [128] :: hashed nothing ops)).
    assert (Un : U [128]) by (right; right; now left).
    destruct (run_ok keccak keccak_32 keccak_wf keccak_null f Lf U TK Un ops nothing s0 (nothing_ok keccak U s0 B) F) as (w' & E' & R & _).
    { intros e I. right. right. now right. }
    rewrite E in E'. injection E' as <-. apply (reads_ok keccak keccak_32 keccak_wf keccak_null f Lf U TK Un w _ a k R); [now left|right; now left].
  Qed.
  (** A state that was committed can be opened again at any later time and carried on from there: everything is as if nothing had happened in between. *)
  Theorem C94_reopen : forall s0 ops1 ops2, blank s0 -> Forall wop_ok ops1 -> Forall wop_ok ops2 -> apart ([128] :: hashed nothing (ops1 ++ WCommit :: ops2)) ->
    exists r w2 w, state_root ops1 = Ok r /\ w_run nothing (ops1 ++ WCommit :: ops2) = Ok w2 /\ w_open (tr_db (w_trie w2)) (w_codes w2) r = Ok w /\
      forall ops3 a k, Forall wop_ok ops3 -> apart (a :: k :: [128] :: hashed nothing (ops1 ++ WCommit :: ops2) ++ hashed w ops3) ->
        exists w3, w_run w ops3 = Ok w3 /\ reads w3 (spec s0 (ops1 ++ ops3)) a k.
  Proof.
    intros s0 ops1 ops2 B F1 F2 TA. set (H := hashed nothing (ops1 ++ WCommit :: ops2)) in *.
    destruct (committed_then (fun e => In e ([128] :: H)) s0 ops1 ops2 TA (or_introl eq_refl) B F1 F2) as (r & w2 & t & m & ER & E2 & HD); [intros e I; now right|].
    destruct (reopened _ _ _ _ _ _ HD) as (w & EW & _). exists r, w2, w. split; [exact ER|]. split; [exact E2|]. split; [exact EW|].
    intros ops3 a k F3 TK. set (U := fun e => In e (a :: k :: [128] :: H ++ hashed w ops3)).
    assert (Un : U [128]) by (right; right; now left).
    destruct (committed_then U s0 ops1 ops2 TK Un B F1 F2) as (r' & w2' & t' & m' & ER' & E2' & HD'); [intros e I; do 3 right; apply in_app_iff; now left|].
    rewrite ER in ER'. injection ER' as <-. rewrite E2 in E2'. injection E2' as <-.
    destruct (reopened _ _ _ _ _ _ HD') as (w' & EW' & R). rewrite EW in EW'. injection EW' as <-.
    destruct (run_ok keccak keccak_32 keccak_wf keccak_null f Lf U TK Un ops3 w _ R F3) as (w3 & E3 & R3 & _); [intros e I; do 3 right; apply in_app_iff; now right|].
    exists w3. split; [exact E3|]. unfold WorldProofs.spec. rewrite fold_left_app.
    apply (reads_ok keccak keccak_32 keccak_wf keccak_null f Lf U TK Un w3 _ a k R3); [now left|right; now left].
  Qed.

  Lemma slots_unique U db db' root root' g : injective_on keccak U -> slots_ok keccak U db root g -> slots_ok keccak U db' root' g -> root = root'.
  Proof.
    intros IU (u & mu & HO & -> & _ & M1 & M2 & M3) (u' & mu' & HO' & -> & _ & N1 & N2 & N3). f_equal. f_equal.
    apply (same_contents digest_key 32 u u' mu'); [|exact HO']. apply (holds_ext digest_key 32 u mu mu' HO). intros h Kh.
    destruct (mu h) as [v|] eqn:E.
    - destruct (M2 h) as (k & Uk & ->); [congruence|]. rewrite M1 in E by exact Uk. now rewrite N1 by exact Uk.
    - destruct (mu' h) as [v|] eqn:E'; [|reflexivity]. destruct (N2 h) as (k & Uk & ->); [congruence|]. rewrite M1 in E by exact Uk. rewrite N1 in E' by exact Uk. congruence.
  Qed.
  Lemma accs_unique U db db' m m' A : injective_on keccak U -> accs U db m A -> accs U db' m' A -> forall h, m h = m' h.
  Proof.
    intros IU (P & Q & _) (P' & Q' & _).
    assert (S : forall a, U a -> m (keccak a) = m' (keccak a)).
    { intros a Ua. specialize (P a Ua). specialize (P' a Ua). destruct (A !! a) as [x|]; [|congruence].
      destruct P as (raw & -> & root & -> & S & _). destruct P' as (raw' & -> & root' & -> & S' & _). now rewrite (slots_unique U db db' root root' _ IU S S'). }
    intros h. destruct (m h) eqn:E.
    - destruct (Q h) as (a & Ua & ->); [congruence|]. rewrite <- E. now apply S.
    - destruct (m' h) eqn:E'; [|reflexivity]. destruct (Q' h) as (a & Ua & ->); [congruence|]. rewrite <- E, <- E'. symmetry. now rewrite S.
  Qed.
  (** The state root depends on the accounts alone, not on how they came about. *)
  Theorem C94_history : forall s1 s2 ops1 ops2, blank s1 -> blank s2 -> Forall wop_ok ops1 -> Forall wop_ok ops2 ->
    apart ([128] :: hashed nothing (ops1 ++ [WCommit]) ++ hashed nothing (ops2 ++ [WCommit])) ->
    xs_acc (spec s1 ops1) = xs_acc (spec s2 ops2) -> exists r, state_root ops1 = Ok r /\ state_root ops2 = Ok r.
  Proof.
    intros s1 s2 ops1 ops2 B1 B2 F1 F2 TA E. set (U := fun e => In e ([128] :: hashed nothing (ops1 ++ [WCommit]) ++ hashed nothing (ops2 ++ [WCommit]))).
    assert (Un : U [128]) by now left.
    destruct (committed_then U s1 ops1 [] TA Un B1 F1 (Forall_nil _)) as (r1 & w1 & t1 & m1 & R1 & _ & -> & H1 & O1 & _ & _ & A1 & _); [intros e I; right; apply in_app_iff; now left|].
    destruct (committed_then U s2 ops2 [] TA Un B2 F2 (Forall_nil _)) as (r2 & w2 & t2 & m2 & R2 & _ & -> & H2 & O2 & _ & _ & A2 & _); [intros e I; right; apply in_app_iff; now right|].
    rewrite <- E in A2. exists (keccak (encT t1)). split; [exact R1|]. rewrite R2. f_equal. f_equal. f_equal. symmetry.
    apply (same_contents digest_key 32 t1 t2 m2); [|exact O2]. apply (holds_ext digest_key 32 t1 m1 m2 O1). intros h _. exact (accs_unique U _ _ m1 m2 _ TA A1 A2 h).
  Qed.
  Lemma slots_bind U db db' root g g' k : injective_on keccak U -> U [128] -> honest U db -> honest U db' -> slots_ok keccak U db root g -> slots_ok keccak U db' root g' -> U k -> g !! k = g' !! k.
  Proof.
    intros IU Un H H' (u & mu & HO & -> & S & M1 & _ & M3) (u' & mu' & HO' & E & S' & N1 & _ & N3) Uk.
    rewrite E in S'. assert (u = u') as <- by (eapply (same_root keccak keccak_32 keccak_wf U IU Un db db'); eauto).
    assert (Q : mu (keccak k) = mu' (keccak k)) by (rewrite <- (proj1 (proj2 HO)), <- (proj1 (proj2 HO')) by apply (dk keccak keccak_32 keccak_wf); reflexivity).
    rewrite M1, N1 in Q by exact Uk. destruct (g !! k) as [v|] eqn:V, (g' !! k) as [v'|] eqn:V'; try discriminate Q; [|reflexivity]. cbn in Q. injection Q as Q.
    apply (f_equal (dec_uint 32)) in Q. rewrite (dec_word v), (dec_word v') in Q by first [apply (M3 k); exact V|apply (N3 k); exact V']. exact Q.
  Qed.
  (** Two states with the same root are the same state: existence, nonce, balance, code and storage of every account. *)
  Theorem C94_binding : forall s1 s2 ops1 ops2 r, blank s1 -> blank s2 -> Forall wop_ok ops1 -> Forall wop_ok ops2 -> state_root ops1 = Ok r -> state_root ops2 = Ok r ->
    forall (a k : bytes), apart (a :: k :: [128] :: hashed nothing (ops1 ++ [WCommit]) ++ hashed nothing (ops2 ++ [WCommit])) ->
    be_exists (spec s1 ops1) a = be_exists (spec s2 ops2) a /\ be_basic (spec s1 ops1) a = be_basic (spec s2 ops2) a
    /\ be_code (spec s1 ops1) a = be_code (spec s2 ops2) a /\ be_storage (spec s1 ops1) a k = be_storage (spec s2 ops2) a k.
  Proof.
    intros s1 s2 ops1 ops2 r B1 B2 F1 F2 E1 E2 a k TA. set (U := fun e => In e (a :: k :: [128] :: hashed nothing (ops1 ++ [WCommit]) ++ hashed nothing (ops2 ++ [WCommit]))).
    assert (Un : U [128]) by (right; right; now left).
    destruct (committed_then U s1 ops1 [] TA Un B1 F1 (Forall_nil _)) as (r1 & w1 & t1 & m1 & R1 & _ & -> & H1 & O1 & S1 & D1 & A1 & C1); [intros e I; do 3 right; apply in_app_iff; now left|].
    destruct (committed_then U s2 ops2 [] TA Un B2 F2 (Forall_nil _)) as (r2 & w2 & t2 & m2 & R2 & _ & -> & H2 & O2 & S2 & D2 & A2 & C2); [intros e I; do 3 right; apply in_app_iff; now right|].
    rewrite E1 in R1. rewrite E2 in R2. injection R1 as Q1. injection R2 as Q2. rewrite Q1 in Q2. clear E1 E2 Q1 r.
    assert (t1 = t2) as <- by (eapply (same_root keccak keccak_32 keccak_wf U TA Un (tr_db (w_trie w1)) (tr_db (w_trie w2))); eauto).
    assert (Ua : U a) by now left. assert (Uk : U k) by (right; now left).
    assert (Q : m1 (keccak a) = m2 (keccak a)) by (rewrite <- (proj1 (proj2 O1)), <- (proj1 (proj2 O2)) by apply (dk keccak keccak_32 keccak_wf); reflexivity).
    destruct A1 as (P1 & _). destruct A2 as (P2 & _). specialize (P1 a Ua). specialize (P2 a Ua). unfold be_exists, be_basic, be_code, be_storage.
    destruct C1 as (K1 & L1 & N1). destruct C2 as (K2 & L2 & N2).
    destruct (xs_acc (spec s1 ops1) !! a) as [x1|] eqn:X1, (xs_acc (spec s2 ops2) !! a) as [x2|] eqn:X2.
    - destruct P1 as (raw1 & M1 & root1 & -> & T1 & W1). destruct P2 as (raw2 & M2 & root2 & -> & T2 & W2). rewrite M1, M2 in Q. injection Q as Q.
      apply (f_equal Web3Model.dec_acct) in Q. rewrite !Web3Props.acct_roundtrip in Q by assumption. injection Q as -> -> -> EC. split; [reflexivity|]. split; [reflexivity|]. split.
      + rewrite <- EC. destruct (beqb (a_code x1) NIL_CODE) eqn:Z; [reflexivity|].
        destruct (N1 a x1 X1) as [Y|[c Y]]; [rewrite Y, beqb_refl in Z; discriminate Z|]. destruct (N2 a x2 X2) as [Y'|[c' Y']]; [rewrite <- EC in Y'; rewrite Y', beqb_refl in Z; discriminate Z|].
        rewrite <- EC in Y'. rewrite Y, Y'. destruct (L1 _ _ (K1 _ _ Y)) as [Z1 V1]. destruct (L2 _ _ (K2 _ _ Y')) as [Z2 V2]. apply TA; auto. congruence.
      + now rewrite (slots_bind U _ _ root2 _ _ k TA Un H1 H2 T1 T2 Uk).
    - destruct P1 as (raw1 & M1 & _). congruence.
    - destruct P2 as (raw2 & M2 & _). congruence.
    - now repeat split.
  Qed.

  (* ---------------- C95 ---------------- *)
  Lemma proof_ok U db t m k : injective_on keccak U -> honest U db -> holds t m -> stored db t -> db (keccak (encT t)) = Some (encT t) -> digest_key k ->
    exists pf, trie_proof keccak f (mktrie (shallow t) db) k = Ok pf /\ (t <> TE -> verify_proof keccak f (keccak (encT t)) k pf = Ok (m k)).
  Proof.
    intros IU H HO S D Kk. destruct (key_term keccak keccak_32 keccak_wf digest_key 32 f digest_keys Lf k Kk) as [Tk _]. assert (HO' := HO). destruct HO as (W & AA & _).
    destruct (path_ok keccak keccak_32 keccak_wf db _ t (from_raw k) f S W ds Tk (enough 32 f Lf 2 ltac:(lia))) as (l & PL & ML).
    assert (EN : fst (encode_raw keccak (shallow t)) = encT t) by (apply (enc_rep keccak db); [now apply rep_shallow|intros h; apply shallow_not_hash]).
    unfold trie_proof. cbn [tr_db tr_root]. rewrite PL. cbn [obnd]. eexists. split; [reflexivity|]. intros NE.
    replace (is_empty_node (shallow t)) with false by (destruct t; [easy|reflexivity..]).
    rewrite rev_app_distr. cbn [rev app map]. rewrite EN, map_rev, ML, rev_involutive.
    pose proof (committed_in keccak keccak_32 keccak_wf U t db H S D) as CI.
    set (pf := encT t :: pencs keccak t (from_raw k)).
    assert (PU : forall e, In e pf -> U e). { intros e [<-|I]; apply CI; [now left|right]. now apply (pencs_below keccak keccak_32 keccak_wf t (from_raw k) e (2 * 32 + 1)). }
    pose proof (proof_db_has keccak (keccak (encT t)) U IU pf (fun _ => None) PU ltac:(easy)) as HAS.
    change (fold_left _ pf (fun _ => None)) with (proof_db keccak (keccak (encT t)) pf) in HAS.
    assert (HD : honest U (proof_db keccak (keccak (encT t)) pf)). { intros h e I. eapply (proof_db_in keccak); [|exact PU|exact I]. easy. }
    unfold verify_proof, trie_from. rewrite (HAS (encT t)) by (left; split; [now left|now left]). cbn [opt_err obnd].
    rewrite (decode_ok keccak keccak_32 keccak_wf t _ W ds). cbn [obnd]. unfold trie_get. cbn [tr_db tr_root].
    destruct (get_some keccak keccak_32 keccak_wf U (proof_db keccak (keccak (encT t)) pf) IU HD (2 * 32 + 1) t (from_raw k) f) as [X|(_ & e & I & N)]; auto.
    - intros e I. apply CI. now right.
    - exact ds.
    - apply (enough 32 f Lf). lia.
    - rewrite X. now rewrite AA by exact Kk.
    - exfalso. rewrite (HAS e) in N; [discriminate N|]. left. split; [now right|right; now apply (pencs_below keccak keccak_32 keccak_wf t (from_raw k) e (2 * 32 + 1))].
  Qed.
  Lemma sound_ok U t m k pf : injective_on keccak U -> (forall x, In x (encT t :: below keccak t) -> U x) -> holds t m -> digest_key k -> (forall e, In e pf -> U e) ->
    verify_proof keccak f (keccak (encT t)) k pf = Ok (m k) \/ verify_proof keccak f (keccak (encT t)) k pf = Ok None \/ verify_proof keccak f (keccak (encT t)) k pf = Err.
  Proof.
    intros IU CI HO Kk PU. destruct (key_term keccak keccak_32 keccak_wf digest_key 32 f digest_keys Lf k Kk) as [Tk _]. destruct HO as (W & AA & _).
    assert (HD : honest U (proof_db keccak (keccak (encT t)) pf)). { intros h e I. eapply (proof_db_in keccak); [|exact PU|exact I]. easy. }
    unfold verify_proof, trie_from. destruct (proof_db keccak (keccak (encT t)) pf (keccak (encT t))) as [y|] eqn:G; [|now right; right].
    destruct (HD _ _ G) as [Q Uy]. apply IU in Q; [|apply CI; now left|exact Uy]. subst y. cbn [opt_err obnd].
    rewrite (decode_ok keccak keccak_32 keccak_wf t _ W ds). cbn [obnd]. unfold trie_get. cbn [tr_db tr_root].
    destruct (get_some keccak keccak_32 keccak_wf U (proof_db keccak (keccak (encT t)) pf) IU HD (2 * 32 + 1) t (from_raw k) f) as [X|(X & _)]; auto.
    - intros e I. apply CI. now right.
    - exact ds.
    - apply (enough 32 f Lf). lia.
    - left. rewrite X. now rewrite AA by exact Kk.
    - right. left. now rewrite X.
  Qed.
  Lemma slots_from U db root g : injective_on keccak U -> U [128] -> honest U db -> slots_ok keccak U db root g -> (g <> ∅ \/ db RLP_NULL <> None) ->
    exists u mu, root = keccak (encT u) /\ holds u mu /\ stored db u /\ db (keccak (encT u)) = Some (encT u) /\ slots keccak U mu g /\ (g <> ∅ -> u <> TE).
  Proof.
    intros IU Un H (u & mu & HO & -> & S & M) C. exists u, mu. split; [reflexivity|]. split; [exact HO|].
    assert (NE : g <> ∅ -> u <> TE).
    { intros Q ->. apply map_choose in Q as (k & v & Q). destruct M as (M1 & _ & M3). pose proof (holds_TE keccak keccak_32 keccak_wf mu HO k) as X. rewrite M1, Q in X by apply (M3 k v Q). discriminate X. }
    assert (SD : stored db u /\ db (keccak (encT u)) = Some (encT u)).
    { destruct S as [->|[G S]]; [|now split]. destruct C as [C|C]; [now destruct (NE C)|]. split; [constructor|]. change (encT TE) with [128]. rewrite keccak_null.
      destruct (db RLP_NULL) as [e|] eqn:E; [|easy]. destruct (H _ _ E) as [Q Ue]. rewrite <- keccak_null in Q. apply IU in Q; auto. now subst. }
    split; [apply SD|]. split; [apply SD|]. split; [exact M|exact NE].
  Qed.
  (** eth_getStorageAt on the root of a state, at any later time: the slot, for accounts that exist and whose storage is not empty.  Missing: an empty storage is only found
      once the node has committed an empty storage trie ([C95_fresh_refuted]). *)
  Theorem C95_storage_partial : forall s0 ops1 ops2 (a : bytes) pos x, blank s0 -> Forall wop_ok ops1 -> Forall wop_ok ops2 -> pos < 2 ^ 256 ->
    apart (a :: be_fixed 32 pos :: [128] :: hashed nothing (ops1 ++ WCommit :: ops2)) -> xs_acc (spec s0 ops1) !! a = Some x ->
    exists r w2, state_root ops1 = Ok r /\ w_run nothing (ops1 ++ WCommit :: ops2) = Ok w2 /\
      (a_storage x <> ∅ \/ tr_db (w_trie w2) RLP_NULL <> None ->
       r_storage_at keccak f (tr_db (w_trie w2)) r a pos = Ok (be_fixed 32 (be_storage (spec s0 ops1) a (be_fixed 32 pos)))).
  Proof.
    intros s0 ops1 ops2 a pos x B F1 F2 Lp TA EX. set (U := fun e => In e (a :: be_fixed 32 pos :: [128] :: hashed nothing (ops1 ++ WCommit :: ops2))).
    assert (Un : U [128]) by (right; right; now left). assert (Ua : U a) by now left. assert (Uk : U (be_fixed 32 pos)) by (right; now left).
    destruct (committed_then U s0 ops1 ops2 TA Un B F1 F2) as (r & w2 & t & m & ER & E2 & (-> & H & HO & S & D & A & C)); [intros e I; do 3 right; exact I|].
    exists (keccak (encT t)), w2. split; [exact ER|]. split; [exact E2|]. intros NE.
    destruct (good_from keccak keccak_32 keccak_wf U _ t m H HO S D) as [E G]. destruct A as (P & _). specialize (P a Ua). rewrite EX in P. destruct P as (raw & M & root & -> & SO & W).
    destruct (slots_from U _ root (a_storage x) TA Un H SO NE) as (u & mu & -> & HU & SU & DU & (M1 & _ & M3) & _).
    destruct (good_from keccak keccak_32 keccak_wf U _ u mu H HU SU DU) as [EU GU].
    unfold r_storage_at, mpt_from_root. rewrite E. cbn [obnd]. rewrite (read_raw keccak keccak_32 keccak_wf f Lf U _ t m a G), M. cbn [obnd opt_err].
    rewrite Web3Props.acct_roundtrip by exact W. cbn [obnd opt_panic Web3Model.ac_root]. rewrite EU. cbn [obnd]. rewrite (read_raw keccak keccak_32 keccak_wf f Lf U _ u mu _ GU), M1 by exact Uk.
    cbn [obnd]. unfold be_storage. rewrite EX. destruct (a_storage x !! be_fixed 32 pos) as [v|] eqn:V; cbn [fmap option_fmap option_map default]; [|reflexivity].
    rewrite dec_word by apply (M3 _ v V). reflexivity.
  Qed.

  (** what the slots of an answer of eth_getProof should be *)
  Definition slot_proved (g : gmap bytes N) (root : bytes) (p : N) (e : N * N * list bytes) : Prop :=
    fst (fst e) = p /\ snd (fst e) = default 0 (g !! be_fixed 32 p) /\
    (g <> ∅ -> verify_proof keccak f root (keccak (be_fixed 32 p)) (snd e) = Ok (if snd (fst e) =? 0 then None else Some (enc_uint (snd (fst e))))).
  Lemma r_slots_ok U db u mu g : injective_on keccak U -> honest U db -> holds u mu -> stored db u -> db (keccak (encT u)) = Some (encT u) -> slots keccak U mu g -> (g <> ∅ -> u <> TE) ->
    forall ps, (forall p, In p ps -> U (be_fixed 32 p)) -> exists l, r_slots keccak f (mktrie (shallow u) db) ps = Ok l /\ Forall2 (slot_proved g (keccak (encT u))) ps l.
  Proof.
    intros IU H HU SU DU (M1 & _ & M3) NE. destruct (good_from keccak keccak_32 keccak_wf U _ u mu H HU SU DU) as [EU GU].
    induction ps as [|p ps IH]; intros A; [exists []; split; [reflexivity|constructor]|]. assert (Up : U (be_fixed 32 p)) by (apply A; now left).
    destruct (proof_ok U db u mu (keccak (be_fixed 32 p)) IU H HU SU DU (dk keccak keccak_32 keccak_wf _)) as (pf & EP & VP).
    destruct IH as (l & EL & FL); [intros q Q; apply A; now right|].
    cbn [r_slots]. unfold mpt_proof. rewrite EP. cbn [obnd]. rewrite (read_raw keccak keccak_32 keccak_wf f Lf U _ u mu _ GU), M1 by exact Up. cbn [obnd].
    exists ((p, default 0 (g !! be_fixed 32 p), pf) :: l). split.
    - destruct (g !! be_fixed 32 p) as [v|] eqn:V; cbn [fmap option_fmap option_map default from_option]; [rewrite dec_word by apply (M3 _ v V)|]; cbn [opt_panic obnd]; now rewrite EL.
    - constructor; [|exact FL]. split; [reflexivity|]. split; [reflexivity|]. cbn [fst snd]. intros N. rewrite VP by now apply NE. rewrite M1 by exact Up.
      destruct (g !! be_fixed 32 p) as [v|] eqn:V; [|reflexivity]. cbn. destruct (M3 _ v V) as [_ [Z _]]. destruct (N.eqb_spec v 0); [lia|reflexivity].
  Qed.
  (** eth_getProof on the root of a state, at any later time: the fields of the account, an account proof that verifies against the state root and shows these fields, and
      for each slot its value with a proof that verifies against the storage root of the answer.  Missing: accounts with an empty storage. *)
  Theorem C95_proof_partial : forall s0 ops1 ops2 (a : bytes) ps x, blank s0 -> Forall wop_ok ops1 -> Forall wop_ok ops2 ->
    apart (a :: map (be_fixed 32) ps ++ [128] :: hashed nothing (ops1 ++ WCommit :: ops2)) -> xs_acc (spec s0 ops1) !! a = Some x ->
    exists r w2, state_root ops1 = Ok r /\ w_run nothing (ops1 ++ WCommit :: ops2) = Ok w2 /\
      (a_storage x <> ∅ \/ tr_db (w_trie w2) RLP_NULL <> None ->
       exists sr pf l, r_proof keccak f (tr_db (w_trie w2)) r a ps = Ok (Web3Model.WProof a (a_balance x) (a_code x) (a_nonce x) sr pf l)
         /\ verify_proof keccak f r (keccak a) pf = Ok (Some (Web3Model.enc_acct (Acct (a_nonce x) (a_balance x) sr (a_code x))))
         /\ Forall2 (slot_proved (a_storage x) sr) ps l).
  Proof.
    intros s0 ops1 ops2 a ps x B F1 F2 TA EX. set (U := fun e => In e (a :: map (be_fixed 32) ps ++ [128] :: hashed nothing (ops1 ++ WCommit :: ops2))).
    assert (Un : U [128]) by (right; apply in_app_iff; right; now left). assert (Ua : U a) by now left.
    destruct (committed_then U s0 ops1 ops2 TA Un B F1 F2) as (r & w2 & t & m & ER & E2 & (-> & H & HO & S & D & A & C)); [intros e I; right; apply in_app_iff; right; now right|].
    exists (keccak (encT t)), w2. split; [exact ER|]. split; [exact E2|]. intros NE.
    destruct (good_from keccak keccak_32 keccak_wf U _ t m H HO S D) as [E G]. destruct A as (P & _). specialize (P a Ua). rewrite EX in P. destruct P as (raw & M & root & -> & SO & W).
    destruct (slots_from U _ root (a_storage x) TA Un H SO NE) as (u & mu & -> & HU & SU & DU & MU & NU).
    destruct (good_from keccak keccak_32 keccak_wf U _ u mu H HU SU DU) as [EU GU].
    destruct (proof_ok U _ t m (keccak a) TA H HO S D (dk keccak keccak_32 keccak_wf _)) as (pf & EP & VP).
    destruct (r_slots_ok U _ u mu (a_storage x) TA H HU SU DU MU NU ps) as (l & EL & FL); [intros p Ip; right; apply in_app_iff; left; now apply in_map|].
    exists (keccak (encT u)), pf, l. split; [|split; [|exact FL]].
    - unfold r_proof, mpt_from_root, mpt_proof. rewrite E. cbn [obnd]. rewrite EP. cbn [obnd]. rewrite (read_raw keccak keccak_32 keccak_wf f Lf U _ t m a G), M. cbn [obnd].
      rewrite Web3Props.acct_roundtrip by exact W. cbn [obnd opt_panic Web3Model.ac_root]. rewrite EU. cbn [obnd]. rewrite EL. reflexivity.
    - rewrite VP; [now rewrite M|]. intros ->. rewrite (holds_TE keccak keccak_32 keccak_wf m HO a) in M. discriminate M.
  Qed.
  (** The same for an address that has no account, in a state that is not empty. *)
  Theorem C95_absent : forall s0 ops1 ops2 (a : bytes) ps, blank s0 -> Forall wop_ok ops1 -> Forall wop_ok ops2 ->
    apart (a :: [128] :: hashed nothing (ops1 ++ WCommit :: ops2)) -> xs_acc (spec s0 ops1) !! a = None -> xs_acc (spec s0 ops1) <> ∅ ->
    exists r w2 sr ch pf l, state_root ops1 = Ok r /\ w_run nothing (ops1 ++ WCommit :: ops2) = Ok w2 /\
      r_proof keccak f (tr_db (w_trie w2)) r a ps = Ok (Web3Model.WProof a 0 ch 0 sr pf l) /\ verify_proof keccak f r (keccak a) pf = Ok None
      /\ map (fun e => snd (fst e)) l = repeat 0 (length ps).
  Proof.
    intros s0 ops1 ops2 a ps B F1 F2 TA EX NE. set (U := fun e => In e (a :: [128] :: hashed nothing (ops1 ++ WCommit :: ops2))).
    assert (Un : U [128]) by (right; now left). assert (Ua : U a) by now left.
    destruct (committed_then U s0 ops1 ops2 TA Un B F1 F2) as (r & w2 & t & m & ER & E2 & (-> & H & HO & S & D & A & C)); [intros e I; right; now right|].
    destruct (good_from keccak keccak_32 keccak_wf U _ t m H HO S D) as [E G]. destruct A as (P & _ & Q). assert (PA := P a Ua). rewrite EX in PA.
    destruct (proof_ok U _ t m (keccak a) TA H HO S D (dk keccak keccak_32 keccak_wf _)) as (pf & EP & VP).
    exists (keccak (encT t)), w2. eexists _, _, _, _. split; [exact ER|]. split; [exact E2|]. split; [|split].
    - unfold r_proof, mpt_from_root, mpt_proof. rewrite E. cbn [obnd]. rewrite EP. cbn [obnd]. rewrite (read_raw keccak keccak_32 keccak_wf f Lf U _ t m a G), PA. reflexivity.
    - rewrite VP; [now rewrite PA|]. intros ->. apply map_choose in NE as (b & y & Y). specialize (P b (Q b y Y)). rewrite Y in P. destruct P as (raw & M & _).
      rewrite (holds_TE keccak keccak_32 keccak_wf m HO b) in M. discriminate M.
    - rewrite map_map. cbn. clear. induction ps as [|p ps IH]; cbn; congruence.
  Qed.
  (** No proof shows anything else: whatever list of nodes is accepted against a state root with an account is the account at that address, and whatever is then accepted against
      its storage root with a value is the value of that slot. *)
  Theorem C95_sound : forall s0 ops r (a k : bytes) pf pf' raw, blank s0 -> Forall wop_ok ops ->
    apart (a :: k :: [128] :: hashed nothing (ops ++ [WCommit]) ++ pf ++ pf') -> state_root ops = Ok r ->
    verify_proof keccak f r (keccak a) pf = Ok (Some raw) ->
    exists x sr, xs_acc (spec s0 ops) !! a = Some x /\ Web3Model.dec_acct raw = Some (Acct (a_nonce x) (a_balance x) sr (a_code x)) /\
      forall v, verify_proof keccak f sr (keccak k) pf' = Ok (Some v) -> exists n, v = enc_uint n /\ a_storage x !! k = Some n.
  Proof.
    intros s0 ops r a k pf pf' raw B F TA ER V. set (U := fun e => In e (a :: k :: [128] :: hashed nothing (ops ++ [WCommit]) ++ pf ++ pf')).
    assert (Un : U [128]) by (right; right; now left). assert (Ua : U a) by now left. assert (Uk : U k) by (right; now left).
    destruct (committed_then U s0 ops [] TA Un B F (Forall_nil _)) as (r' & w2 & t & m & ER' & E2 & (-> & H & HO & S & D & A & C)); [intros e I; do 3 right; apply in_app_iff; now left|].
    rewrite ER in ER'. injection ER' as ->.
    destruct (sound_ok U t m (keccak a) pf TA (in_U keccak keccak_32 keccak_wf U Un _ t H (or_intror (conj D S))) HO (dk keccak keccak_32 keccak_wf a)) as [X|[X|X]];
      [intros e I; do 3 right; apply in_app_iff; right; apply in_app_iff; now left| |rewrite V in X; discriminate X|rewrite V in X; discriminate X].
    rewrite V in X. injection X as X. destruct A as (P & _). specialize (P a Ua). destruct (xs_acc (spec s0 ops) !! a) as [x|]; [|congruence].
    destruct P as (raw' & M & root & -> & SO & W). rewrite M in X. injection X as ->. exists x, root. split; [reflexivity|]. split; [now apply Web3Props.acct_roundtrip|].
    intros v V'. destruct SO as (u & mu & HU & -> & SU & M1 & _ & M3).
    destruct (sound_ok U u mu (keccak k) pf' TA (in_U keccak keccak_32 keccak_wf U Un _ u H SU) HU (dk keccak keccak_32 keccak_wf k)) as [X|[X|X]];
      [intros e I; do 3 right; apply in_app_iff; right; apply in_app_iff; now right| |rewrite V' in X; discriminate X|rewrite V' in X; discriminate X].
    rewrite V', M1 in X by exact Uk. injection X as X. destruct (a_storage x !! k) as [n|]; [|discriminate X]. cbn in X. injection X as ->. now exists n.
  Qed.
End Props.

(* ================= what does not hold ================= *)
Definition bob : bytes := repeat 17 20.
Definition shop : bytes := repeat 34 20.
Definition slot (n : N) : bytes := be_fixed 32 n.
(** An account that only ever received funds through save_account (as those of the chain spec) cannot be asked for storage or a proof, as long as the node
    has not committed an empty storage trie: the root of its empty storage is not in the database. *)
Theorem C95_fresh_refuted : exists ops a r w, w_run keccak256 150 nothing (ops ++ [WCommit]) = Ok w /\ state_root keccak256 150 ops = Ok r
  /\ w_basic keccak256 150 w a = Ok (0, 1000) /\ r_storage_at keccak256 150 (tr_db (w_trie w)) r a 1 = Err /\ r_proof keccak256 150 (tr_db (w_trie w)) r a [] = Err.
Proof.
  assert (P : (let! r := state_root keccak256 150 [WSet bob 0 1000] in let! w := w_run keccak256 150 nothing ([WSet bob 0 1000] ++ [WCommit]) in
    let! b := w_basic keccak256 150 w bob in
    Ok (b, match r_storage_at keccak256 150 (tr_db (w_trie w)) r bob 1 with Err => true | _ => false end, match r_proof keccak256 150 (tr_db (w_trie w)) r bob [] with Err => true | _ => false end))
    = Ok ((0, 1000), true, true)) by (vm_compute; reflexivity).
  apply obnd_ok in P as (r & R & P). apply obnd_ok in P as (w & W & P). apply obnd_ok in P as (b & B & P). exists [WSet bob 0 1000], bob, r, w.
  split; [exact W|]. split; [exact R|]. injection P as -> P1 P2. split; [exact B|].
  destruct (r_storage_at keccak256 150 (tr_db (w_trie w)) r bob 1); try discriminate P1. split; [reflexivity|].
  destruct (r_proof keccak256 150 (tr_db (w_trie w)) r bob []); try discriminate P2. reflexivity.
Qed.
(** For an account with an empty storage, the proof that a slot is zero is an empty list, which is not accepted. *)
Theorem C95_empty_refuted : exists ops a r w sr pf, w_run keccak256 150 nothing (ops ++ [WCommit]) = Ok w /\ state_root keccak256 150 ops = Ok r
  /\ r_proof keccak256 150 (tr_db (w_trie w)) r a [1] = Ok (Web3Model.WProof a 1000 NIL_CODE 0 sr pf [(1, 0, [])]) /\ verify_proof keccak256 150 sr (keccak256 (slot 1)) [] = Err.
Proof.
  set (ops := [WApply true (AModify bob 0 1000 None [] false)]).
  assert (P : exists pf, (let! r := state_root keccak256 150 ops in let! w := w_run keccak256 150 nothing (ops ++ [WCommit]) in
    r_proof keccak256 150 (tr_db (w_trie w)) r bob [1]) = Ok (Web3Model.WProof bob 1000 NIL_CODE 0 RLP_NULL pf [(1, 0, [])])) by (eexists; vm_compute; reflexivity).
  destruct P as (pf & P). apply obnd_ok in P as (r & R & P). apply obnd_ok in P as (w & W & P). exists ops, bob, r, w, RLP_NULL, pf.
  split; [exact W|]. split; [exact R|]. split; [exact P|]. reflexivity.
Qed.

(* ================= examples ================= *)
Lemma keccak256_null : keccak256 [128] = RLP_NULL.
Proof. vm_compute. reflexivity. Qed.
Definition s_none : xstate := XState ∅ ∅ [] (XCtx 1 [] 0 []) (xs_meta BackendProps.s_empty) ∅ 0.
Lemma s_none_blank : blank s_none.
Proof. split; reflexivity. Qed.
(** An account is funded; a contract gets code and three slots, loses one of them; a block ends; the contract changes a slot and the account pays; a block ends; the contract is destroyed. *)
Definition day1 : list wop := [WSet bob 0 1000; WApply true (AModify shop 1 5 (Some [96; 1]) [(slot 1, 7); (slot 2, 300); (slot 3, 9)] false); WApply true (AModify shop 1 5 None [(slot 1, 0)] false)].
Definition day2 : list wop := [WApply true (AModify shop 1 15 None [(slot 2, 301)] false); WSet bob 1 990; WCommit; WApply true (ADelete shop)].
Definition other1 : list wop := [WApply false (AModify shop 1 5 (Some [96; 1]) [(slot 3, 9); (slot 2, 300)] true); WCommit; WSet bob 3 1; WSet bob 0 1000].
Lemma day1_ok : Forall wop_ok day1. Proof. repeat constructor. Qed.
Lemma day2_ok : Forall wop_ok day2. Proof. repeat constructor. Qed.
Lemma other1_ok : Forall wop_ok other1. Proof. repeat constructor. Qed.
Example C94_nontrivial : tells_apart keccak256 (shop :: slot 2 :: [128] :: hashed keccak256 150 nothing (day1 ++ WCommit :: day2))
  /\ (length (hashed keccak256 150 nothing (day1 ++ WCommit :: day2)) > 20)%nat
  /\ be_storage (spec keccak256 s_none day1) shop (slot 2) = 300 /\ be_storage (spec keccak256 s_none day1) shop (slot 1) = 0 /\ be_code (spec keccak256 s_none day1) shop = [96; 1]
  /\ be_exists (spec keccak256 s_none (day1 ++ day2)) shop = false /\ be_basic (spec keccak256 s_none (day1 ++ day2)) bob = (1, 990).
Proof.
  split; [apply apartb_ok; vm_compute; reflexivity|]. split; [vm_compute; repeat constructor|]. repeat split; vm_compute; reflexivity.
Qed.
Global Instance account_eq_dec : EqDecision account.
Proof. solve_decision. Defined.
(** Two histories with the same accounts. *)
Example C94_history_nontrivial : tells_apart keccak256 ([128] :: hashed keccak256 150 nothing (day1 ++ [WCommit]) ++ hashed keccak256 150 nothing (other1 ++ [WCommit]))
  /\ xs_acc (spec keccak256 s_none day1) = xs_acc (spec keccak256 s_none other1)
  /\ (exists r, state_root keccak256 150 day1 = Ok r /\ state_root keccak256 150 other1 = Ok r).
Proof.
  split; [apply apartb_ok; vm_compute; reflexivity|]. split; [|eexists; split; vm_compute; reflexivity].
  apply (bool_decide_unpack _). vm_compute. exact I.
Qed.
Example C95_nontrivial : tells_apart keccak256 (shop :: map (be_fixed 32) [2; 9] ++ [128] :: hashed keccak256 150 nothing (day1 ++ WCommit :: day2))
  /\ exists r pf sr l, (let! w := w_run keccak256 150 nothing (day1 ++ WCommit :: day2) in r_proof keccak256 150 (tr_db (w_trie w)) r shop [2; 9]) = Ok (Web3Model.WProof shop 5 (keccak256 [96; 1]) 1 sr pf l)
    /\ state_root keccak256 150 day1 = Ok r /\ map fst l = [(2, 300); (9, 0)] /\ (length pf > 1)%nat.
Proof.
  split; [apply apartb_ok; vm_compute; reflexivity|].
  assert (P : exists sr pf l, (let! r := state_root keccak256 150 day1 in let! w := w_run keccak256 150 nothing (day1 ++ WCommit :: day2) in r_proof keccak256 150 (tr_db (w_trie w)) r shop [2; 9])
    = Ok (Web3Model.WProof shop 5 (keccak256 [96; 1]) 1 sr pf l) /\ map fst l = [(2, 300); (9, 0)] /\ (length pf > 1)%nat).
  { eexists _, _, _. split; [vm_compute; reflexivity|]. split; [reflexivity|vm_compute; repeat constructor]. }
  destruct P as (sr & pf & l & P & M & L). apply obnd_ok in P as (r & R & P). exists r, pf, sr, l. split; [exact P|]. split; [exact R|]. split; [exact M|exact L].
Qed.

Print Assumptions C94_refines.
Print Assumptions C94_reopen.
Print Assumptions C94_history.
Print Assumptions C94_binding.
Print Assumptions C95_storage_partial.
Print Assumptions C95_proof_partial.
Print Assumptions C95_absent.
Print Assumptions C95_sound.
Print Assumptions C95_fresh_refuted.
Print Assumptions C95_empty_refuted.
