(** C90, C91, C92 for the tries in use: digests as keys (MPTTrie), positions as keys (TrieMerkle); what does not hold; examples. *)
From Verif Require Import Bytes BytesProofs Rlp RlpProofs TxModel Keccak TrieModel TrieProofs TrieCodec TrieOps TrieDelete TriePaths TrieProps.
From Coq Require Import NArith List Lia.
Import ListNotations.
Local Open Scope N_scope.

(* ================= the two key sets ================= *)
Definition digest_key (k : bytes) : Prop := length k = 32%nat /\ wf_bytes k.
Lemma digest_keys : key_set 32 digest_key.
Proof.
  split; [|split].
  - intros a b c [La _] [Lb _] ->. rewrite app_length in Lb. destruct c; [reflexivity|cbn in Lb; lia].
  - intros k [Lk W]. split; [exact W|lia].
  - vm_compute. discriminate.
Qed.
Definition position_key (k : bytes) : Prop := exists i, i < 2 ^ 64 /\ k = enc_uint i.
Lemma be_min_len64 i : i < 2 ^ 64 -> len (be_min i) <= 8.
Proof. intros H. unfold len. rewrite be_min_length. pose proof (nbytes_le_8 i H). lia. Qed.
Lemma position_keys : key_set 17 position_key.
Proof.
  split; [|split].
  - intros a b c (i & Hi & ->) (j & Hj & ->) E. unfold enc_uint in E. pose proof (be_min_len64 i Hi). pose proof (be_min_len64 j Hj).
    pose proof (dec_value_str (be_min i) c (be_min_wf i) ltac:(lia)) as D1. rewrite <- E in D1.
    rewrite (dec_value_str0 (be_min j) (be_min_wf j)) in D1 by lia. injection D1 as D1. rewrite D1 in E.
    apply (f_equal (@length N)) in E. rewrite app_length in E. destruct c; [reflexivity|cbn in E; lia].
  - intros k (i & Hi & ->). pose proof (be_min_len64 i Hi). unfold enc_uint. split; [apply enc_str_wf; [apply be_min_wf|lia]|].
    pose proof (enc_str_max (be_min i) ltac:(lia)) as M. unfold len in *. lia.
  - vm_compute. discriminate.
Qed.
Lemma enc_uint_inj i j : i < 2 ^ 64 -> j < 2 ^ 64 -> enc_uint i = enc_uint j -> i = j.
Proof.
  intros Hi Hj E. unfold enc_uint in E. pose proof (be_min_len64 i Hi). pose proof (be_min_len64 j Hj).
  pose proof (dec_value_str0 (be_min i) (be_min_wf i) ltac:(lia)) as D1. rewrite E, (dec_value_str0 (be_min j) (be_min_wf j)) in D1 by lia.
  injection D1 as D1. symmetry. now apply be_min_inj.
Qed.

Section Instances.
  Variable keccak : bytes -> bytes.
  Hypothesis keccak_32 : forall b, length (keccak b) = 32%nat.
  Hypothesis keccak_wf : forall b, wf_bytes (keccak b).

  (* ---------------- MPTTrie ---------------- *)
  Definition hash_op (o : op) : op := match o with Put k v => Put (keccak k) v | Del k => Del (keccak k) | Commit => Commit end.
  Definition op_key (o : op) : list bytes := match o with Put k _ | Del k => [k] | Commit => [] end.
  Definition value_ok (o : op) : Prop := match o with Put _ v => wf_bytes v /\ len v < 2 ^ 32 | _ => True end.
  Lemma hash_ops_ok ops : Forall value_ok ops -> Forall (op_ok digest_key) (map hash_op ops).
  Proof.
    induction 1 as [|o ops V F IH]; cbn; [constructor|]. constructor; [|exact IH]. destruct o; cbn in *; auto; repeat split; try apply V; auto.
  Qed.
  Lemma after_hashed k : forall ops m m', (forall x y, In x (k :: flat_map op_key ops) -> In y (k :: flat_map op_key ops) -> keccak x = keccak y -> x = y) ->
    m' (keccak k) = m k -> fold_left after1 (map hash_op ops) m' (keccak k) = fold_left after1 ops m k.
  Proof.
    induction ops as [|o ops IH]; intros m m' I E; cbn [map fold_left]; [exact E|]. apply IH.
    - intros x y X Y. apply I; (destruct X as [X|X]; [now left|right; cbn; apply in_app_iff; now right]) || (destruct Y as [Y|Y]; [now left|right; cbn; apply in_app_iff; now right]).
    - assert (B : forall x, In x (op_key o) -> beqb (keccak k) (keccak x) = beqb k x).
      { intros x X. destruct (beqb k x) eqn:Q; [apply beqb_eq in Q; subst; apply beqb_refl|]. apply beqb_neq. intros Z. apply I in Z; [subst; now rewrite beqb_refl in Q|now left|].
        right. cbn. apply in_app_iff. now left. }
      destruct o as [x v|x|]; cbn [hash_op after1 op_key] in *; [destruct v; rewrite B by (now left); now rewrite E|rewrite B by (now left); now rewrite E|exact E].
  Qed.
  (** The trie of accounts or of a contract's storage, with hashed keys, is the map of what was put under the keys themselves. *)
  Theorem C90_state_trie : forall f ops, (fuel 32 <= f)%nat -> Forall value_ok ops -> tells_apart keccak (written keccak f fresh (map hash_op ops)) ->
    exists T, run keccak f fresh (map hash_op ops) = Ok T /\
      forall k, tells_apart keccak (k :: flat_map op_key ops) -> mpt_get keccak f T k = Ok (after ops k).
  Proof.
    intros f ops Lf V TA. destruct (C90_map keccak keccak_32 keccak_wf digest_key 32 f digest_keys Lf (map hash_op ops) (hash_ops_ok ops V) TA) as (T & E & G).
    exists T. split; [exact E|]. intros k I. unfold mpt_get. rewrite G by (split; [apply keccak_32|apply keccak_wf]). f_equal. now apply after_hashed.
  Qed.

  (* ---------------- TrieMerkle ---------------- *)
  Fixpoint puts (i : N) (items : list bytes) : list op := match items with [] => [] | x :: r => Put (enc_uint i) x :: puts (i + 1) r end.
  Lemma merkle_run f : forall items i T T', run keccak f T (puts i items) = Ok T' -> merkle_from f T i items = Ok T'.
  Proof.
    induction items as [|x items IH]; intros i T T' E; [exact E|]. cbn [puts run do1] in E. cbn [merkle_from]. destruct (trie_insert f T (enc_uint i) x); cbn [obnd] in E; try discriminate E. now apply IH.
  Qed.
  Definition items_ok (items : list bytes) : Prop := Forall (fun x : bytes => x <> [] /\ wf_bytes x /\ len x < 2 ^ 32) items /\ N.of_nat (length items) < 2 ^ 64.
  Lemma puts_ok (items : list bytes) : forall i, Forall (fun x : bytes => x <> [] /\ wf_bytes x /\ len x < 2 ^ 32) items -> i + N.of_nat (length items) < 2 ^ 64 -> Forall (op_ok position_key) (puts i items).
  Proof.
    induction items as [|x items IH]; intros i F B; cbn [puts]; [constructor|]. inversion F as [|? ? (N & W & Ln) F']; subst. cbn [length] in B.
    constructor; [|apply IH; [exact F'|lia]]. cbn. repeat split; auto. exists i. split; [lia|reflexivity].
  Qed.
  Lemma after_puts (items : list bytes) : forall i j m, Forall (fun x : bytes => x <> [] /\ wf_bytes x /\ len x < 2 ^ 32) items -> i + N.of_nat (length items) < 2 ^ 64 -> j < 2 ^ 64 ->
    fold_left after1 (puts i items) m (enc_uint j) = if (i <=? j) && (j <? i + N.of_nat (length items)) then nth_error items (N.to_nat (j - i)) else m (enc_uint j).
  Proof.
    induction items as [|x items IH]; intros i j m F B J; cbn [puts fold_left].
    - cbn [length]. rewrite N.add_0_r. destruct (N.leb_spec i j), (N.ltb_spec j i); cbn; try reflexivity; lia.
    - inversion F as [|? ? (N & W & Ln) F']; subst. cbn [length] in *. rewrite IH by (auto; lia).
      destruct x as [|x0 x]; [easy|]. cbn [after1].
      destruct (N.leb_spec (i + 1) j), (N.ltb_spec j (i + 1 + N.of_nat (length items))), (N.leb_spec i j), (N.ltb_spec j (i + N.of_nat (S (length items)))); cbn [andb]; try lia.
      + replace (N.to_nat (j - i)) with (S (N.to_nat (j - (i + 1)))) by lia. reflexivity.
      + rewrite beqb_neq; [reflexivity|]. intros X. apply enc_uint_inj in X; lia.
      + assert (j = i) as -> by lia. rewrite beqb_refl, N.sub_diag. reflexivity.
      + rewrite beqb_neq; [reflexivity|]. intros X. apply enc_uint_inj in X; lia.
  Qed.
  Lemma merkle_root_after f items : forall r, root_after keccak f (puts 0 items) = Ok r -> merkle_root keccak f items = Ok r.
  Proof.
    unfold root_after, merkle_root. fold fresh. intros r E. destruct (run keccak f fresh (puts 0 items)) as [T| |] eqn:R; cbn [obnd] in E; try discriminate E.
    rewrite (merkle_run f items 0 _ T R). exact E.
  Qed.
  (** Every list of items has a root. *)
  Theorem C91_list_root : forall f items, (fuel 17 <= f)%nat -> items_ok items -> tells_apart keccak (written keccak f fresh (puts 0 items ++ [Commit])) ->
    exists r, merkle_root keccak f items = Ok r /\ root_after keccak f (puts 0 items) = Ok r.
  Proof.
    intros f items Lf [F B] TA. assert (O : Forall (op_ok position_key) (puts 0 items)) by (apply puts_ok; [exact F|rewrite N.add_0_l; exact B]).
    destruct (C90_history keccak keccak_32 keccak_wf position_key 17 f position_keys Lf (puts 0 items) (puts 0 items) O O TA TA ltac:(reflexivity)) as (r & E & _).
    exists r. split; [now apply merkle_root_after|exact E].
  Qed.
  (** Two lists of items with the same root are the same list: same length, same order. *)
  Theorem C91_list_binding : forall f xs ys, (fuel 17 <= f)%nat -> items_ok xs -> items_ok ys ->
    tells_apart keccak (written keccak f fresh (puts 0 xs ++ [Commit]) ++ written keccak f fresh (puts 0 ys ++ [Commit])) ->
    merkle_root keccak f xs = merkle_root keccak f ys -> xs = ys.
  Proof.
    intros f xs ys Lf X Y TA E.
    destruct (C91_list_root f xs Lf X) as (r & E1 & R1). { intros a b A B. apply TA; apply in_app_iff; now left. }
    destruct (C91_list_root f ys Lf Y) as (s & E2 & R2). { intros a b A B. apply TA; apply in_app_iff; now right. }
    rewrite E1, E2 in E. injection E as <-. destruct X as [FX BX], Y as [FY BY].
    assert (BX' : 0 + N.of_nat (length xs) < 2 ^ 64) by (rewrite N.add_0_l; exact BX).
    assert (BY' : 0 + N.of_nat (length ys) < 2 ^ 64) by (rewrite N.add_0_l; exact BY).
    pose proof (C91_binding keccak keccak_32 keccak_wf position_key 17 f position_keys Lf (puts 0 xs) (puts 0 ys) r
      (puts_ok xs 0 FX BX') (puts_ok ys 0 FY BY') TA R1 R2) as B.
    assert (G : forall i, N.of_nat i < 2 ^ 64 -> nth_error xs i = nth_error ys i).
    { intros i I. specialize (B (enc_uint (N.of_nat i)) ltac:(exists (N.of_nat i); now split)). unfold after in B.
      rewrite (after_puts xs 0 (N.of_nat i) _ FX BX' I), (after_puts ys 0 (N.of_nat i) _ FY BY' I) in B.
      rewrite !N.sub_0_r, !Nat2N.id, !N.add_0_l in B. cbn [N.leb N.compare] in B.
      rewrite !(proj2 (N.leb_le 0 (N.of_nat i))) in B by lia. cbn [andb] in B.
      destruct (N.ltb_spec (N.of_nat i) (N.of_nat (length xs))) as [P|P], (N.ltb_spec (N.of_nat i) (N.of_nat (length ys))) as [Q|Q].
      - exact B.
      - rewrite B. symmetry. apply nth_error_None. lia.
      - rewrite <- B. apply nth_error_None. lia.
      - transitivity (@None bytes); [apply nth_error_None; lia|symmetry; apply nth_error_None; lia]. }
    clear - G BX BY. revert ys G BY. 
    assert (A : forall n (xs ys : list bytes), (length xs <= n)%nat -> (length ys <= n)%nat -> (forall i, (i < n)%nat -> nth_error xs i = nth_error ys i) -> xs = ys).
    { clear. induction n as [|n IH]; intros [|x xs] [|y ys] L M G; cbn in L, M; try lia; try reflexivity.
      - specialize (G 0%nat ltac:(lia)). discriminate G.
      - specialize (G 0%nat ltac:(lia)). discriminate G.
      - pose proof (G 0%nat ltac:(lia)) as G0. injection G0 as ->. f_equal. apply IH; try lia. intros i I. apply (G (S i)). lia. }
    intros ys G BY. apply (A (Nat.max (length xs) (length ys))); try lia. intros i I. apply G. lia.
  Qed.
End Instances.

(* ================= the hash in use ================= *)
Lemma keccak256_32 b : length (keccak256 b) = 32%nat.
Proof. unfold keccak256. cbn [seq map concat]. rewrite !app_length, !le_fixed_length. reflexivity. Qed.
Lemma keccak256_wf b : wf_bytes (keccak256 b).
Proof. unfold keccak256. cbn [seq map concat]. rewrite !wf_bytes_app. repeat split; try apply le_fixed_wf. constructor. Qed.
Fixpoint apartb (l : list (bytes * bytes)) : bool :=
  match l with [] => true | (h, a) :: r => forallb (fun x => negb (beqb h (fst x)) || beqb a (snd x)) r && apartb r end.
Lemma apartb_ok l : apartb (map (fun a => (keccak256 a, a)) l) = true -> tells_apart keccak256 l.
Proof.
  induction l as [|x l IH]; intros H a b A B E; [easy|]. cbn [map apartb] in H. apply andb_prop in H as [H1 H2]. rewrite forallb_forall in H1.
  assert (S : forall y, In y l -> keccak256 x = keccak256 y -> x = y).
  { intros y Y Q. specialize (H1 (keccak256 y, y) ltac:(apply in_map_iff; exists y; now split)). cbn [fst snd] in H1. rewrite Q, beqb_refl in H1. cbn in H1. now apply beqb_eq in H1. }
  destruct A as [<-|A], B as [<-|B]; [reflexivity|apply S; auto|symmetry; apply S; auto|apply (IH H2); auto].
Qed.

(* ================= what does not hold ================= *)
Lemma obnd_ok {A B} (o : outcome A) (g : A -> outcome B) y : obnd o g = Ok y -> exists x, o = Ok x /\ g x = Ok y.
Proof. destruct o; cbn; intros E; [eauto|discriminate E..]. Qed.
(** Keys of which one starts another: a removal that leaves a branch with one child and no value does not close it, and the root tells the history.
    (Neither digests nor positions are such keys.) *)
Theorem C90_prefix_refuted : exists ops1 ops2, (forall k, after ops1 k = after ops2 k) /\
  exists r1 r2, root_after keccak256 60 ops1 = Ok r1 /\ root_after keccak256 60 ops2 = Ok r2 /\ r1 <> r2.
Proof.
  exists [Put [18] [1]; Put [18; 52] [2]; Del [18]], [Put [18; 52] [2]]. split.
  - intros k. cbn [after fold_left after1]. destruct (beqb k [18]) eqn:E; [|reflexivity]. apply beqb_eq in E. subst k. reflexivity.
  - eexists _, _. split; [vm_compute; reflexivity|]. split; [vm_compute; reflexivity|]. intros X. apply (f_equal (hd 0)) in X. vm_compute in X. discriminate X.
Qed.
(** An empty item is the same as no item. *)
Theorem C91_empty_item_refuted : exists xs ys r, xs <> ys /\ merkle_root keccak256 80 xs = Ok r /\ merkle_root keccak256 80 ys = Ok r.
Proof. exists [[7]; []], [[7]]. eexists. split; [discriminate|]. split; vm_compute; reflexivity. Qed.
(** The proof that an empty trie lacks a key is the empty list, and the empty list is not accepted. *)
Theorem C92_empty_refuted : exists T r pf k, run keccak256 80 fresh [Commit] = Ok T /\ root_after keccak256 80 [] = Ok r
  /\ trie_proof keccak256 80 T k = Ok pf /\ verify_proof keccak256 80 r k pf = Err.
Proof.
  assert (P : (let! T := run keccak256 80 fresh [Commit] in trie_proof keccak256 80 T [1]) = Ok []) by (vm_compute; reflexivity).
  assert (V : (let! r := root_after keccak256 80 [] in match verify_proof keccak256 80 r [1] [] with Err => Ok tt | _ => Err end) = Ok tt) by (vm_compute; reflexivity).
  apply obnd_ok in P as (T & E & P). apply obnd_ok in V as (r & R & V). exists T, r, [], [1]. split; [exact E|]. split; [exact R|]. split; [exact P|].
  destruct (verify_proof keccak256 80 r [1] []); [discriminate V|reflexivity|discriminate V].
Qed.
(** A proof of absence proves nothing: leave out the last node of a proof of presence, and the key is reported absent. *)
Definition w32 (x : N) : bytes := repeat x 32.
Definition two_keys : list op := [Put (w32 1) (w32 101); Put (w32 33) (w32 102)].
Theorem C92_absence_refuted : exists ops k r pf v, Forall (op_ok digest_key) ops /\ digest_key k /\ after ops k = Some v /\ root_after keccak256 150 ops = Ok r
  /\ verify_proof keccak256 150 r k pf = Ok None.
Proof.
  assert (P : exists d, (let! T := run keccak256 150 fresh (two_keys ++ [Commit]) in Ok (fst (encode_raw keccak256 (tr_root T)))) = Ok d
    /\ (let! r := root_after keccak256 150 two_keys in verify_proof keccak256 150 r (w32 1) [d]) = Ok None).
  { eexists. split; [vm_compute; reflexivity|]. vm_compute. reflexivity. }
  destruct P as (d & _ & V). apply obnd_ok in V as (r & R & V).
  exists two_keys, (w32 1), r, [d], (w32 101).
  assert (KD : forall x, x < 256 -> digest_key (w32 x)).
  { intros x X. split; [apply repeat_length|]. unfold w32. apply Forall_forall. intros y Y. apply repeat_spec in Y. now subst. }
  split; [repeat constructor; try (apply KD; reflexivity); try (apply (KD 101); reflexivity); try (apply (KD 102); reflexivity)|].
  split; [apply KD; reflexivity|]. split; [reflexivity|]. split; [exact R|exact V].
Qed.

(* ================= examples ================= *)
(** The hypotheses of the theorems are met: a history with insertions, replacement, removal and a commit in between, under Keccak. *)
Definition history1 : list op := [Put (w32 1) (w32 101); Put (w32 17) (w32 102); Commit; Put (w32 1) [5; 6]; Put (w32 16) (w32 104); Del (w32 17)].
Definition history2 : list op := [Put (w32 16) (w32 104); Put (w32 1) [5; 6]].
Lemma w32_key x : x < 256 -> digest_key (w32 x).
Proof. intros X. split; [apply repeat_length|]. unfold w32. apply Forall_forall. intros y Y. apply repeat_spec in Y. now subst. Qed.
Lemma history1_ok : Forall (op_ok digest_key) history1.
Proof. unfold history1. repeat constructor; try (apply w32_key; reflexivity); try (apply (w32_key 101); reflexivity); try (apply (w32_key 102); reflexivity); apply (w32_key 104); reflexivity. Qed.
Lemma history2_ok : Forall (op_ok digest_key) history2.
Proof. unfold history2. repeat constructor; try (apply w32_key; reflexivity); apply (w32_key 104); reflexivity. Qed.
Example C90_nontrivial : tells_apart keccak256 (written keccak256 150 fresh (history1 ++ [Commit]) ++ written keccak256 150 fresh (history2 ++ [Commit]))
  /\ (length (written keccak256 150 fresh (history1 ++ [Commit])) > 4)%nat
  /\ (exists r, root_after keccak256 150 history1 = Ok r /\ root_after keccak256 150 history2 = Ok r)
  /\ after history1 (w32 1) = Some [5; 6] /\ after history1 (w32 17) = None.
Proof.
  split; [apply apartb_ok; vm_compute; reflexivity|]. split; [vm_compute; repeat constructor|].
  split; [eexists; split; vm_compute; reflexivity|]. split; vm_compute; reflexivity.
Qed.
Example C91_nontrivial : tells_apart keccak256 (written keccak256 80 fresh (puts 0 [w32 1; w32 2; w32 3] ++ [Commit]) ++ written keccak256 80 fresh (puts 0 [w32 1; w32 3; w32 2] ++ [Commit]))
  /\ (exists r s, merkle_root keccak256 80 [w32 1; w32 2; w32 3] = Ok r /\ merkle_root keccak256 80 [w32 1; w32 3; w32 2] = Ok s /\ r <> s).
Proof.
  split; [apply apartb_ok; vm_compute; reflexivity|]. eexists _, _. split; [vm_compute; reflexivity|]. split; [vm_compute; reflexivity|].
  intros X. apply (f_equal (hd 0)) in X. vm_compute in X. discriminate X.
Qed.
Example C92_nontrivial : exists T r pf, run keccak256 150 fresh (history1 ++ [Commit]) = Ok T /\ root_after keccak256 150 history1 = Ok r
  /\ trie_proof keccak256 150 T (w32 16) = Ok pf /\ (length pf > 1)%nat /\ verify_proof keccak256 150 r (w32 16) pf = Ok (Some (w32 104)).
Proof.
  assert (P : exists pf, (let! T := run keccak256 150 fresh (history1 ++ [Commit]) in trie_proof keccak256 150 T (w32 16)) = Ok pf
    /\ (length pf > 1)%nat /\ (let! r := root_after keccak256 150 history1 in verify_proof keccak256 150 r (w32 16) pf) = Ok (Some (w32 104))).
  { eexists. split; [vm_compute; reflexivity|]. split; [vm_compute; repeat constructor|]. vm_compute. reflexivity. }
  destruct P as (pf & P & Ln & V). apply obnd_ok in P as (T & E & P). apply obnd_ok in V as (r & R & V). exists T, r, pf.
  split; [exact E|]. split; [exact R|]. split; [exact P|]. split; [exact Ln|exact V].
Qed.

Print Assumptions C90_map.
Print Assumptions C90_remove.
Print Assumptions C90_history.
Print Assumptions C90_reopen.
Print Assumptions C90_state_trie.
Print Assumptions C90_prefix_refuted.
Print Assumptions C91_binding.
Print Assumptions C91_list_root.
Print Assumptions C91_list_binding.
Print Assumptions C91_empty_item_refuted.
Print Assumptions C92_complete_partial.
Print Assumptions C92_sound.
Print Assumptions C92_empty_refuted.
Print Assumptions C92_absence_refuted.
