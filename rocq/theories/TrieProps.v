(** C90, C91, C92: the Merkle Patricia trie as a map, its root as a commitment, and its proofs. *)
From Verif Require Import Bytes BytesProofs Rlp RlpProofs TxModel Keccak TrieModel TrieProofs TrieCodec TrieOps TrieDelete TriePaths.
From Coq Require Import NArith List Lia.
Import ListNotations.
Local Open Scope N_scope.

(* ================= specification ================= *)
(** What is done to a trie, and the map it should then be. *)
Inductive op := Put (k v : bytes) | Del (k : bytes) | Commit.
Definition after1 (m : bytes -> option bytes) (o : op) : bytes -> option bytes :=
  match o with
  | Put k [] | Del k => fun x => if beqb x k then None else m x
  | Put k v => fun x => if beqb x k then Some v else m x
  | Commit => m
  end.
Definition after (ops : list op) : bytes -> option bytes := fold_left after1 ops (fun _ => None).

(** The same on the model. *)
Section Runs.
  Variable keccak : bytes -> bytes.
  Definition do1 (f : nat) (T : trie) (o : op) : outcome trie :=
    match o with
    | Put k v => trie_insert f T k v
    | Del k => let! r := trie_remove f T k in Ok (fst r)
    | Commit => let! r := trie_root keccak T in Ok (snd r)
    end.
  Fixpoint run (f : nat) (T : trie) (ops : list op) : outcome trie :=
    match ops with
    | [] => Ok T
    | o :: r => let! T' := do1 f T o in run f T' r
    end.
  (** all node encodings a run writes *)
  Fixpoint written (f : nat) (T : trie) (ops : list op) : list bytes :=
    match ops with
    | [] => []
    | o :: r =>
        match o with Commit => map snd (commit_writes keccak (tr_root T)) | _ => [] end
        ++ match do1 f T o with Ok T' => written f T' r | _ => [] end
    end.
  Definition fresh : trie := trie_new (fun _ => None).
  Definition root_after (f : nat) (ops : list op) : outcome bytes :=
    let! T := run f fresh ops in let! r := trie_root keccak T in Ok (fst r).
  (** no two different strings of the list have the same hash *)
  Definition tells_apart (l : list bytes) : Prop := forall a b, In a l -> In b l -> keccak a = keccak b -> a = b.
End Runs.
(** The keys of a trie: byte strings of at most [L] bytes, none of them the start of another. *)
Definition key_set (L : nat) (K : bytes -> Prop) : Prop :=
  prefix_free K /\ (forall k, K k -> wf_bytes k /\ (length k <= L)%nat) /\ N.of_nat L <= 2 ^ 28.
Definition op_ok (K : bytes -> Prop) (o : op) : Prop :=
  match o with
  | Put k v => K k /\ wf_bytes v /\ len v < 2 ^ 32
  | Del k => K k
  | Commit => True
  end.
Definition fuel (L : nat) : nat := 2 * (2 * L + 1) + 10.

(* ================= proofs ================= *)
Section Props.
  Variable keccak : bytes -> bytes.
  Hypothesis keccak_32 : forall b, length (keccak b) = 32%nat.
  Hypothesis keccak_wf : forall b, wf_bytes (keccak b).
  Variables (K : bytes -> Prop) (L f : nat).
  Hypothesis KS : key_set L K.
  Hypothesis Lf : (fuel L <= f)%nat.
  Local Notation encT := (encT keccak).
  Local Notation shallow := (shallow keccak).
  Local Notation rep := (rep keccak).
  Local Notation stored := (stored keccak).
  Local Notation below := (below keccak).
  Local Notation injective_on := (injective_on keccak).
  Local Notation honest := (honest keccak).
  Local Notation run := (run keccak).
  Local Notation written := (written keccak).
  Local Notation tells_apart := (tells_apart keccak).
  Local Notation root_after := (root_after keccak).
  Let d := (2 * L + 1)%nat.

  (** What a trie in the middle of a run is. *)
  Definition holds (t : tree) (m : bytes -> option bytes) : Prop :=
    wfr d t /\ (forall k, K k -> tget t (from_raw k) = m k) /\ (forall q, term q -> tget t q <> None -> exists k, K k /\ q = from_raw k).
  Definition good (U : bytes -> Prop) (T : trie) (t : tree) (m : bytes -> option bytes) : Prop :=
    honest U (tr_db T) /\ plain (tr_root T) /\ rep (tr_db T) (tr_root T) t /\ holds t m.

  Lemma d_small : N.of_nat d <= 2 ^ 30.
  Proof. destruct KS as (_ & _ & B). unfold d. lia. Qed.
  Lemma key_term k : K k -> term (from_raw k) /\ (length (from_raw k) <= d)%nat.
  Proof. intros Kk. destruct KS as (_ & B & _). destruct (B k Kk) as [W Ln]. split; [now apply from_raw_term|rewrite from_raw_length; unfold d; lia]. Qed.
  Lemma key_inj a b : K a -> K b -> from_raw a = from_raw b -> a = b.
  Proof. intros Ka Kb. destruct KS as (_ & B & _). apply from_raw_inj; now apply B. Qed.
  Lemma key_compat t m k : holds t m -> K k -> compat t (from_raw k).
  Proof.
    intros (W & A & B) Kk q Tq G. destruct (B q Tq G) as (k' & Kk' & ->). destruct (list_eq_dec N.eq_dec k k') as [->|NE]; [now left|right].
    destruct KS as (PF & Bd & _). eapply paths_diverge; eauto. intros x X. now apply Bd.
  Qed.
  Lemma good_new U : good U fresh TE (fun _ => None).
  Proof. split; [easy|]. split; [easy|]. split; [constructor|]. split; [now left|]. split; [reflexivity|]. now intros q _ X. Qed.
  Lemma beqb_sym a b : beqb a b = beqb b a.
  Proof. destruct (beqb a b) eqn:E; symmetry; [apply beqb_eq in E; subst; apply beqb_refl|]. apply beqb_neq. intros ->. now rewrite beqb_refl in E. Qed.
  Lemma key_beqb a b : K a -> K b -> beqb (from_raw a) (from_raw b) = beqb b a.
  Proof. intros Ka Kb. destruct (beqb b a) eqn:E; [apply beqb_eq in E; subst; apply beqb_refl|]. apply beqb_neq. intros X. apply key_inj in X; auto. subst. now rewrite beqb_refl in E. Qed.

  Lemma enough c : (c <= 10)%nat -> (2 * d + c <= f)%nat.
  Proof. unfold fuel in Lf. unfold d. lia. Qed.
  Lemma good_get U T t m k : good U T t m -> K k -> trie_get f T k = Ok (m k).
  Proof.
    intros (H & P & R & W & A & B) Kk. unfold trie_get. rewrite <- A by exact Kk.
    apply (get_ok keccak keccak_32 keccak_wf _ d); auto; [exact d_small|now apply key_term|apply enough; lia].
  Qed.
  Lemma good_remove U T t m k : good U T t m -> K k ->
    exists T' t', trie_remove f T k = Ok (T', present (m k)) /\ tr_db T' = tr_db T /\ good U T' t' (fun x => if beqb x k then None else m x).
  Proof.
    intros G Kk. assert (HH := G). destruct G as (H & P & R & HO). assert (HO' := HO). destruct HO as (W & A & B). unfold trie_remove.
    destruct (delete_ok keccak keccak_32 keccak_wf (tr_db T) d (tr_root T) t (from_raw k) f) as (n' & t' & -> & P' & R' & W' & G'); auto;
      [exact d_small|now apply key_term|now apply (key_compat t m)|].
    cbn [obnd fst snd]. exists (mktrie n' (tr_db T)), t'. rewrite A by exact Kk. split; [reflexivity|]. split; [reflexivity|].
    split; [exact H|]. split; [exact P'|]. split; [exact R'|]. split; [exact W'|]. split.
    - intros x Kx. rewrite G' by now apply key_term. rewrite key_beqb by auto. now rewrite A.
    - intros q Tq X. apply B; [exact Tq|]. rewrite G' in X by exact Tq. now destruct (beqb (from_raw k) q).
  Qed.
  Lemma good_insert U T t m k v : good U T t m -> K k -> wf_bytes v -> len v < 2 ^ 32 ->
    exists T' t', trie_insert f T k v = Ok T' /\ tr_db T' = tr_db T /\ good U T' t' (after1 m (Put k v)).
  Proof.
    intros G Kk Wv Lv. destruct v as [|v0 v].
    - unfold trie_insert. destruct (good_remove U T t m k G Kk) as (T' & t' & -> & E & G'). cbn [obnd fst]. exists T', t'. split; [reflexivity|]. split; [exact E|exact G'].
    - assert (HH := G). destruct G as (H & P & R & HO). assert (HO' := HO). destruct HO as (W & A & B). unfold trie_insert.
      assert (V : value (v0 :: v)) by (split; [discriminate|split; [exact Wv|exact Lv]]).
      destruct (insert_ok keccak keccak_32 keccak_wf (tr_db T) (v0 :: v) V d (tr_root T) t (from_raw k) f R W d_small
        (proj1 (key_term k Kk)) (proj2 (key_term k Kk)) (key_compat t m k HO' Kk) (enough 3 ltac:(lia))) as (n' & t' & -> & P' & R' & W' & _ & G').
      cbn [obnd]. exists (mktrie n' (tr_db T)), t'. split; [reflexivity|]. split; [reflexivity|].
      split; [exact H|]. split; [exact P'|]. split; [exact R'|]. split; [now right|]. split.
      + intros x Kx. rewrite G' by now apply key_term. rewrite key_beqb by auto. cbn [after1]. now rewrite A.
      + intros q Tq X. rewrite G' in X by exact Tq. destruct (beqb (from_raw k) q) eqn:E; [apply beqb_eq in E; subst q; exists k; split; [exact Kk|reflexivity]|exact (B q Tq X)].
  Qed.
  Lemma good_commit U T t m : injective_on U -> good U T t m -> (forall e, In e (map snd (commit_writes keccak (tr_root T))) -> U e) ->
    exists T', trie_root keccak T = Ok (keccak (encT t), T') /\ good U T' t m /\ extends (tr_db T) (tr_db T') /\ tr_root T' = shallow t
      /\ stored (tr_db T') t /\ tr_db T' (keccak (encT t)) = Some (encT t).
  Proof.
    intros IU (H & P & R & HO) A. assert (HO' := HO). destruct HO as (W & _).
    destruct (commit_ok keccak keccak_32 keccak_wf U (tr_db T) (tr_root T) t d) as (db' & E & H' & X & S & G); auto; [exact d_small| |].
    { apply Forall_forall. intros w I. apply A. now apply in_map. }
    exists (mktrie (shallow t) db'). destruct T as [n db]. cbn [tr_root tr_db] in *. split; [exact E|]. split; [|now repeat split].
    split; [exact H'|]. split; [intros h; apply shallow_not_hash|]. split; [now apply rep_shallow|exact HO'].
  Qed.
  (** One step and a run keep it. *)
  Lemma good_do U T t m o : injective_on U -> good U T t m -> op_ok K o -> (forall e, In e (written f T [o]) -> U e) ->
    exists T' t', do1 keccak f T o = Ok T' /\ good U T' t' (after1 m o) /\ extends (tr_db T) (tr_db T').
  Proof.
    intros IU G O A. destruct o as [k v|k|]; cbn [do1].
    - destruct O as (Kk & Wv & Lv). destruct (good_insert U T t m k v G Kk Wv Lv) as (T' & t' & -> & E & G'). exists T', t'. split; [reflexivity|]. split; [exact G'|].
      now rewrite E.
    - destruct (good_remove U T t m k G O) as (T' & t' & -> & E & G'). exists T', t'. split; [reflexivity|]. split; [exact G'|]. now rewrite E.
    - destruct (good_commit U T t m IU G) as (T' & E & G' & X & _). { intros e I. apply A. cbn [TrieProps.written]. apply in_app_iff. now left. }
      rewrite E. exists T', t. split; [reflexivity|]. split; [exact G'|exact X].
  Qed.
  Lemma written_cons T o r : written f T (o :: r) = written f T [o] ++ match do1 keccak f T o with Ok T' => written f T' r | _ => [] end.
  Proof. cbn [TrieProps.written]. rewrite <- app_assoc. f_equal. now destruct (do1 keccak f T o). Qed.
  Lemma good_run U : injective_on U -> forall ops T t m, good U T t m -> Forall (op_ok K) ops -> (forall e, In e (written f T ops) -> U e) ->
    exists T' t', run f T ops = Ok T' /\ good U T' t' (fold_left after1 ops m) /\ extends (tr_db T) (tr_db T').
  Proof.
    intros IU. induction ops as [|o ops IH]; intros T t m G F A; [exists T, t; split; [reflexivity|]; split; [exact G|now intros ? ?]|].
    inversion F as [|? ? O F']; subst. rewrite written_cons in A.
    destruct (good_do U T t m o IU G O) as (T1 & t1 & E & G1 & X1); [intros e I; apply A, in_app_iff; now left|].
    rewrite E in A. destruct (IH T1 t1 (after1 m o) G1 F') as (T2 & t2 & E2 & G2 & X2); [intros e I; apply A, in_app_iff; now right|].
    exists T2, t2. cbn [TrieProps.run]. rewrite E. cbn [obnd]. split; [exact E2|]. split; [exact G2|]. intros h e I. now apply X2, X1.
  Qed.
  Lemma run_app T a b : run f T (a ++ b) = let! T' := run f T a in run f T' b.
  Proof. revert T. induction a as [|o a IH]; intros T; [reflexivity|]. cbn [app TrieProps.run]. destruct (do1 keccak f T o); cbn [obnd]; auto. Qed.
  Lemma written_app T a b T' : run f T a = Ok T' -> written f T (a ++ b) = written f T a ++ written f T' b.
  Proof.
    revert T. induction a as [|o a IH]; intros T E; [now injection E as ->|]. cbn [app]. rewrite (written_cons T o (a ++ b)), (written_cons T o a). cbn [TrieProps.run] in E.
    destruct (do1 keccak f T o) as [T1| |]; cbn [obnd] in E; try discriminate E. rewrite (IH T1 E). now rewrite app_assoc.
  Qed.

  (* ---------------- C90 ---------------- *)
  (** Whatever was inserted, replaced, removed and committed, a look-up finds what the map has. *)
  Theorem C90_map : forall ops, Forall (op_ok K) ops -> tells_apart (written f fresh ops) ->
    exists T, run f fresh ops = Ok T /\ forall k, K k -> trie_get f T k = Ok (after ops k).
  Proof.
    intros ops F TA. destruct (good_run (fun e => In e (written f fresh ops)) TA ops fresh TE _ (good_new _) F) as (T & t & E & G & _); [auto|].
    exists T. split; [exact E|]. intros k Kk. exact (good_get _ T t _ k G Kk).
  Qed.
  (** A removal reports whether the key was there. *)
  Theorem C90_remove : forall ops k, Forall (op_ok K) ops -> K k -> tells_apart (written f fresh ops) ->
    exists T T', run f fresh ops = Ok T /\ trie_remove f T k = Ok (T', match after ops k with Some _ => true | None => false end).
  Proof.
    intros ops k F Kk TA. destruct (good_run (fun e => In e (written f fresh ops)) TA ops fresh TE _ (good_new _) F) as (T & t & E & G & _); [auto|].
    destruct (good_remove _ T t _ k G Kk) as (T' & t' & E' & _). exists T, T'. now split.
  Qed.
  Lemma same_contents t u m : holds t m -> holds u m -> t = u.
  Proof.
    intros (W & A & B) (V & A' & B'). apply (canonical_root t u d d W V). intros p T.
    destruct (tget t p) as [v|] eqn:E.
    - destruct (B p T) as (k & Kk & ->); [congruence|]. now rewrite <- E, A, A' by exact Kk.
    - destruct (tget u p) as [v|] eqn:E'; [|reflexivity]. destruct (B' p T) as (k & Kk & ->); [congruence|]. rewrite A in E by exact Kk. rewrite A' in E' by exact Kk. congruence.
  Qed.
  Lemma holds_ext t m m' : holds t m -> (forall k, K k -> m k = m' k) -> holds t m'.
  Proof. intros (W & A & B) X. split; [exact W|]. split; [|exact B]. intros k Kk. rewrite A by exact Kk. now apply X. Qed.
  (** A run and its root, in terms of the tree. *)
  Lemma root_of_run U ops : injective_on U -> Forall (op_ok K) ops -> (forall e, In e (written f fresh (ops ++ [Commit])) -> U e) ->
    exists T T' t, run f fresh ops = Ok T /\ good U T t (after ops) /\ trie_root keccak T = Ok (keccak (encT t), T') /\ good U T' t (after ops)
      /\ tr_root T' = shallow t /\ stored (tr_db T') t /\ tr_db T' (keccak (encT t)) = Some (encT t) /\ run f fresh (ops ++ [Commit]) = Ok T'.
  Proof.
    intros IU F A. 
    assert (A0 : forall e, In e (written f fresh ops) -> U e).
    { intros e I. apply A. clear - I. revert I. generalize fresh as T. induction ops as [|o ops IH]; intros T I; [easy|]. cbn [app]. rewrite (written_cons T o (ops ++ [Commit])). rewrite (written_cons T o ops) in I.
      apply in_app_iff in I as [I|I]; apply in_app_iff; [now left|right]. destruct (do1 keccak f T o); [now apply IH|easy|easy]. }
    destruct (good_run U IU ops fresh TE _ (good_new _) F A0) as (T & t & E & G & _).
    destruct (good_commit U T t (after ops) IU G) as (T' & E' & G' & X & R & S & D).
    { intros e I. apply A. rewrite (written_app _ _ _ T E). apply in_app_iff. right. cbn [TrieProps.written]. apply in_app_iff. now left. }
    exists T, T', t. split; [exact E|]. split; [exact G|]. split; [exact E'|]. split; [exact G'|]. split; [exact R|]. split; [exact S|]. split; [exact D|].
    rewrite run_app, E. cbn [obnd TrieProps.run do1]. now rewrite E'.
  Qed.
  (** The root depends on the contents alone, not on how they came about. *)
  Theorem C90_history : forall ops1 ops2, Forall (op_ok K) ops1 -> Forall (op_ok K) ops2 ->
    tells_apart (written f fresh (ops1 ++ [Commit])) -> tells_apart (written f fresh (ops2 ++ [Commit])) -> (forall k, K k -> after ops1 k = after ops2 k) ->
    exists r, root_after f ops1 = Ok r /\ root_after f ops2 = Ok r.
  Proof.
    intros o1 o2 F1 F2 T1 T2 S.
    destruct (root_of_run (fun e => In e (written f fresh (o1 ++ [Commit]))) o1 T1 F1 ltac:(auto)) as (A & A' & t & E1 & _ & R1 & G1 & _).
    destruct (root_of_run (fun e => In e (written f fresh (o2 ++ [Commit]))) o2 T2 F2 ltac:(auto)) as (B & B' & u & E2 & _ & R2 & G2 & _).
    assert (t = u) as <-. { apply (same_contents t u (after o2)); [eapply holds_ext; [apply G1|exact S]|apply G2]. }
    exists (keccak (encT t)). unfold TrieProps.root_after. rewrite E1, E2. cbn [obnd]. now rewrite R1, R2.
  Qed.
  (** A committed root can be opened again at any later time, and shows what was there when it was committed. *)
  Theorem C90_reopen : forall ops1 ops2 r, Forall (op_ok K) ops1 -> Forall (op_ok K) ops2 ->
    tells_apart (written f fresh (ops1 ++ [Commit] ++ ops2)) -> root_after f ops1 = Ok r ->
    exists T2 T, run f fresh (ops1 ++ [Commit] ++ ops2) = Ok T2 /\ trie_from (tr_db T2) r = Ok T /\ forall k, K k -> trie_get f T k = Ok (after ops1 k).
  Proof.
    intros o1 o2 r F1 F2 TA ER. set (U := fun e => In e (written f fresh (o1 ++ [Commit] ++ o2))). rewrite app_assoc in TA.
    assert (pre : forall T a b e, In e (written f T a) -> In e (written f T (a ++ b))).
    { clear. intros T a b e. revert T. induction a as [|o a IH]; intros T I; [easy|]. cbn [app]. rewrite (written_cons T o (a ++ b)). rewrite (written_cons T o a) in I.
      apply in_app_iff in I as [I|I]; apply in_app_iff; [now left|right]. destruct (do1 keccak f T o); [now apply IH|easy|easy]. }
    destruct (root_of_run U o1) as (A & A' & t & E1 & _ & R1 & G1 & RT & S & D & E2); auto.
    { unfold U. rewrite app_assoc. exact TA. }
    { intros e I. unfold U. rewrite app_assoc. now apply pre. }
    unfold TrieProps.root_after in ER. rewrite E1 in ER. cbn [obnd] in ER. rewrite R1 in ER. cbn [obnd fst] in ER. injection ER as <-.
    destruct (good_run U) with (ops := o2) (T := A') (t := t) (m := after o1) as (T2 & t2 & E3 & G3 & X3); auto.
    { unfold U. rewrite app_assoc. exact TA. }
    { intros e I. unfold U. rewrite app_assoc, (written_app _ _ _ _ E2). apply in_app_iff. now right. }
    exists T2, (mktrie (shallow t) (tr_db T2)). split; [rewrite app_assoc, run_app, E2; exact E3|]. destruct G1 as (_ & _ & _ & HO). assert (HO' := HO). destruct HO as (W & AA & BB).
    assert (ST : stored (tr_db T2) t) by (eapply stored_mono; eauto).
    split.
    - unfold trie_from. rewrite (X3 _ _ D). cbn [opt_err obnd]. rewrite (decode_ok keccak keccak_32 keccak_wf t d W d_small). reflexivity.
    - intros k Kk. apply (good_get U _ t); [|exact Kk]. split; [apply G3|]. split; [intros h; apply shallow_not_hash|]. split; [now apply rep_shallow|exact HO'].
  Qed.

  (* ---------------- C91 ---------------- *)
  Lemma committed_in U t db : honest U db -> stored db t -> db (keccak (encT t)) = Some (encT t) -> forall x, In x (encT t :: below t) -> U x.
  Proof. intros H S D x [<-|I]; [now apply (H _ _ D)|]. apply (stored_below keccak keccak_32 keccak_wf db t) in I; [|exact S]. now apply (H _ _ I). Qed.
  (** Two tries with the same root hold the same, unless two of the node encodings they wrote have the same hash. *)
  Theorem C91_binding : forall ops1 ops2 r, Forall (op_ok K) ops1 -> Forall (op_ok K) ops2 ->
    tells_apart (written f fresh (ops1 ++ [Commit]) ++ written f fresh (ops2 ++ [Commit])) ->
    root_after f ops1 = Ok r -> root_after f ops2 = Ok r -> forall k, K k -> after ops1 k = after ops2 k.
  Proof.
    intros o1 o2 r F1 F2 TA ER1 ER2 k Kk. set (U := fun e => In e (written f fresh (o1 ++ [Commit]) ++ written f fresh (o2 ++ [Commit]))).
    destruct (root_of_run U o1 TA F1) as (A & A' & t & E1 & _ & R1 & G1 & _ & S1 & D1 & _); [intros e I; apply in_app_iff; now left|].
    destruct (root_of_run U o2 TA F2) as (B & B' & u & E2 & _ & R2 & G2 & _ & S2 & D2 & _); [intros e I; apply in_app_iff; now right|].
    unfold TrieProps.root_after in ER1, ER2. rewrite E1 in ER1. rewrite E2 in ER2. cbn [obnd] in *. rewrite R1 in ER1. rewrite R2 in ER2. cbn [obnd fst] in *.
    injection ER1 as <-. injection ER2 as ER2. destruct G1 as (H1 & _ & _ & W1 & A1 & _). destruct G2 as (H2 & _ & _ & W2 & A2 & _).
    assert (t = u) as <-.
    { apply (bind_root keccak keccak_32 keccak_wf U t u d d); auto; [exact d_small|exact d_small|now apply (committed_in U t (tr_db A'))|now apply (committed_in U u (tr_db B'))]. }
    now rewrite <- A1, <- A2.
  Qed.

  (* ---------------- C92 ---------------- *)
  (** The proof for a key, taken from a committed trie that is not empty, is accepted and shows what the trie has, for keys present and absent. *)
  Theorem C92_complete_partial : forall ops k, Forall (op_ok K) ops -> K k -> tells_apart (written f fresh (ops ++ [Commit])) ->
    (exists k', K k' /\ after ops k' <> None) ->
    exists T r pf, run f fresh (ops ++ [Commit]) = Ok T /\ root_after f ops = Ok r /\ trie_proof keccak f T k = Ok pf /\ verify_proof keccak f r k pf = Ok (after ops k).
  Proof.
    intros ops k F Kk TA (k0 & K0 & P0). set (U := fun e => In e (written f fresh (ops ++ [Commit]))).
    destruct (root_of_run U ops TA F ltac:(auto)) as (A & A' & t & E1 & _ & R1 & G1 & RT & S & D & E2).
    destruct (key_term k Kk) as [Tk _]. assert (G2 := G1). destruct G1 as (H & _ & _ & HO). destruct HO as (W & AA & BB).
    assert (NE : t <> TE). { intros ->. apply P0. rewrite <- AA by exact K0. reflexivity. }
    destruct (path_ok keccak keccak_32 keccak_wf (tr_db A') d t (from_raw k) f) as (l & PL & ML); auto; [exact d_small|apply enough; lia|].
    pose proof (committed_in U t (tr_db A') H S D) as CI.
    assert (EN : fst (encode_raw keccak (shallow t)) = encT t) by (apply (enc_rep keccak (tr_db A')); [now apply rep_shallow|intros h; apply shallow_not_hash]).
    exists A', (keccak (encT t)), (encT t :: pencs keccak t (from_raw k)). split; [exact E2|].
    split; [unfold TrieProps.root_after; rewrite E1; cbn [obnd]; now rewrite R1|]. split.
    { unfold trie_proof. rewrite RT, PL. cbn [obnd]. replace (is_empty_node (shallow t)) with false by (destruct t; [easy|reflexivity..]).
      rewrite rev_app_distr. cbn [rev app map]. rewrite EN, map_rev, ML, rev_involutive. reflexivity. }
    set (pf := encT t :: pencs keccak t (from_raw k)).
    assert (PU : forall e, In e pf -> U e). { intros e [<-|I]; apply CI; [now left|right]. now apply (pencs_below keccak keccak_32 keccak_wf t (from_raw k) e d). }
    pose proof (proof_db_has keccak (keccak (encT t)) U TA pf (fun _ => None) PU ltac:(easy)) as HAS.
    change (fold_left _ pf (fun _ => None)) with (proof_db keccak (keccak (encT t)) pf) in HAS.
    assert (HD : honest U (proof_db keccak (keccak (encT t)) pf)). { intros h e I. eapply (proof_db_in keccak); [|exact PU|exact I]. easy. }
    unfold verify_proof, trie_from. rewrite (HAS (encT t)) by (left; split; [now left|now left]). cbn [opt_err obnd].
    rewrite (decode_ok keccak keccak_32 keccak_wf t d W d_small). cbn [obnd]. unfold trie_get. cbn [tr_db tr_root].
    destruct (get_some keccak keccak_32 keccak_wf U (proof_db keccak (keccak (encT t)) pf) TA HD d t (from_raw k) f) as [X|(_ & e & I & N)]; auto.
    - intros e I. apply CI. now right.
    - exact d_small.
    - apply enough; lia.
    - rewrite X. now rewrite AA by exact Kk.
    - exfalso. rewrite (HAS e) in N; [discriminate N|]. left. split; [now right|right; now apply (pencs_below keccak keccak_32 keccak_wf t (from_raw k) e d)].
  Qed.
  (** No list of nodes whatever proves anything else about a key than its value: what is accepted with a value is the value, unless a node of the list has the same hash as a
      different node of the trie; and a verification never crashes. *)
  Theorem C92_sound : forall ops r k pf, Forall (op_ok K) ops -> K k -> tells_apart (written f fresh (ops ++ [Commit]) ++ pf) -> root_after f ops = Ok r ->
    verify_proof keccak f r k pf = Ok (after ops k) \/ verify_proof keccak f r k pf = Ok None \/ verify_proof keccak f r k pf = Err.
  Proof.
    intros ops r k pf F Kk TA ER. set (U := fun e => In e (written f fresh (ops ++ [Commit]) ++ pf)).
    destruct (root_of_run U ops TA F) as (A & A' & t & E1 & _ & R1 & G1 & RT & S & D & E2); [intros e I; apply in_app_iff; now left|].
    unfold TrieProps.root_after in ER. rewrite E1 in ER. cbn [obnd] in ER. rewrite R1 in ER. cbn [obnd fst] in ER. injection ER as <-.
    destruct (key_term k Kk) as [Tk _]. destruct G1 as (H & _ & _ & HO). destruct HO as (W & AA & BB).
    pose proof (committed_in U t (tr_db A') H S D) as CI.
    assert (HD : honest U (proof_db keccak (keccak (encT t)) pf)). { intros h e I. eapply (proof_db_in keccak); [| |exact I]; [easy|]. intros x X. apply in_app_iff. now right. }
    unfold verify_proof, trie_from. destruct (proof_db keccak (keccak (encT t)) pf (keccak (encT t))) as [y|] eqn:G; [|now right; right].
    destruct (HD _ _ G) as [Q Uy]. apply TA in Q; [|apply CI; now left|exact Uy]. subst y. cbn [opt_err obnd].
    rewrite (decode_ok keccak keccak_32 keccak_wf t d W d_small). cbn [obnd]. unfold trie_get. cbn [tr_db tr_root].
    destruct (get_some keccak keccak_32 keccak_wf U (proof_db keccak (keccak (encT t)) pf) TA HD d t (from_raw k) f) as [X|(X & _)]; auto.
    - intros e I. apply CI. now right.
    - exact d_small.
    - apply enough; lia.
    - left. rewrite X. now rewrite AA by exact Kk.
    - right. left. now rewrite X.
  Qed.
End Props.
