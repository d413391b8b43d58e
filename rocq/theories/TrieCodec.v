(** Proofs about the encoding of the trie's nodes: what a tree is encoded to, and that decoding reads it back. *)
From Verif Require Import Bytes BytesProofs Rlp RlpProofs TxModel TrieModel TrieProofs.
From Coq Require Import NArith List Lia.
Import ListNotations.
Local Open Scope N_scope.

(* ---------------- the compact form of paths ---------------- *)
Lemma nibbles_pairs n : forall l, length l = (2 * n)%nat -> Forall nib l -> nibbles (pairs l) = l.
Proof.
  unfold nib. induction n as [|n IH]; intros l L F; [destruct l; [reflexivity|cbn in L; lia]|].
  destruct l as [|a [|b r]]; [cbn in L; lia..|]. inversion F as [|? ? Ha F']; subst. inversion F' as [|? ? Hb F'']; subst.
  cbn [pairs nibbles flat_map app]. fold (nibbles (pairs r)). rewrite IH; [|cbn in L; lia|exact F''].
  f_equal; [|f_equal].
  - rewrite N.div_add_l by lia. rewrite (N.div_small b) by lia. lia.
  - rewrite N.add_comm, N.mod_add by lia. now apply N.mod_small.
Qed.
Lemma even_half (l : list N) : Nat.odd (length l) = false -> exists n, length l = (2 * n)%nat.
Proof. intros H. rewrite <- Nat.negb_even in H. destruct (Nat.even (length l)) eqn:E; [|discriminate H]. now apply Nat.even_spec in E. Qed.
Lemma nibbles_pairs_even l : Nat.odd (length l) = false -> Forall nib l -> nibbles (pairs l) = l.
Proof. intros O F. destruct (even_half l O) as (n & L). now apply (nibbles_pairs n). Qed.
Lemma pairs_wf n : forall l, (length l <= 2 * n)%nat -> Forall nib l -> wf_bytes (pairs l) /\ (length (pairs l) <= length l)%nat.
Proof.
  unfold nib. induction n as [|n IH]; intros l L F; [destruct l; [split; [constructor|reflexivity]|cbn in L; lia]|].
  destruct l as [|a [|b r]]; [split; [constructor|cbn; lia]..|]. inversion F as [|? ? Ha F']; subst. inversion F' as [|? ? Hb F'']; subst.
  destruct (IH r) as [W K]; [cbn in L; lia|exact F''|]. cbn [pairs length]. split; [|lia]. constructor; [unfold is_byte; lia|exact W].
Qed.
Lemma term_split k : term k -> exists h, k = h ++ [16] /\ Forall nib h.
Proof.
  induction 1 as [|i r I T (h & -> & F)]; [exists []; split; [reflexivity|constructor]|]. exists (i :: h). split; [reflexivity|now constructor].
Qed.
(** The two kinds of path a node carries. *)
Definition path (k : list N) : Prop := term k \/ (k <> [] /\ Forall nib k).
Lemma last_app (l : list N) x d : last (l ++ [x]) d = x.
Proof. induction l as [|a l IH]; [reflexivity|]. cbn [app]. destruct (l ++ [x]) eqn:E; [now destruct l|]. exact IH. Qed.
Lemma last_In (l : list N) d : l <> [] -> In (last l d) l.
Proof. induction l as [|a l IH]; [easy|]. intros _. destruct l as [|b l]; [now left|]. right. apply IH. easy. Qed.
Lemma hex_split k : path k -> exists (leaf : bool) h, k = h ++ (if leaf then [16] else []) /\ Forall nib h
  /\ (last k 0 =? 16) = leaf /\ (if leaf then removelast k else k) = h /\ (leaf = false -> h <> []) /\ (leaf = true <-> term k).
Proof.
  intros [T|[NE F]].
  - destruct (term_split _ T) as (h & -> & F). exists true, h. rewrite last_app, removelast_last. repeat split; auto. easy.
  - exists false, k. rewrite app_nil_r. assert (E : (last k 0 =? 16) = false).
    { apply N.eqb_neq. pose proof (last_In k 0 NE) as I. rewrite Forall_forall in F. specialize (F _ I). unfold nib in F. lia. }
    repeat split; auto; [easy|]. intros T. destruct (term_split _ T) as (h & -> & _). rewrite last_app in E. discriminate E.
Qed.
Lemma compact_ok k : path k -> from_compact (encode_compact k) = Ok k /\ wf_bytes (encode_compact k) /\ len (encode_compact k) <= 1 + len k
  /\ is_leaf k = Ok (if last k 0 =? 16 then true else false).
Proof.
  intros P. destruct (hex_split k P) as (leaf & h & E & F & L & R & NE & _). unfold encode_compact. rewrite L, R.
  assert (IL : is_leaf k = Ok (if leaf then true else false)).
  { unfold is_leaf. destruct leaf; rewrite E; [now rewrite rev_app_distr|]. rewrite app_nil_r in *. subst h.
    destruct (rev k) as [|x r] eqn:V; [apply (f_equal (@rev N)) in V; rewrite rev_involutive in V; now apply NE in V|].
    f_equal. apply N.eqb_neq. assert (I : In x k) by (rewrite in_rev, V; now left). rewrite Forall_forall in F. specialize (F _ I). unfold nib in F. lia. }
  assert (LE : len h <= len k) by (rewrite E, len_app; lia).
  destruct (Nat.odd (length h)) eqn:O.
  - destruct h as [|a h]; [discriminate O|]. cbn [hd tl]. inversion F as [|? ? Ha F']; subst. unfold nib in Ha.
    assert (O' : Nat.odd (length h) = false). { cbn [length] in O. rewrite Nat.odd_succ, <- Nat.negb_odd in O. now destruct (Nat.odd (length h)). }
    destruct (pairs_wf (length h) h ltac:(lia) F') as [W K].
    assert (D : forall c, (16 + a + (if leaf then 32 else 0)) / 16 = (if leaf then 3 else 1) /\ (16 + a + (if leaf then 32 else 0)) mod 16 = a + c * 0).
    { intros c. destruct leaf.
      - replace (16 + a + 32) with (a + 3 * 16) by lia. rewrite N.div_add, N.mod_add, N.div_small, N.mod_small by lia. lia.
      - replace (16 + a + 0) with (a + 1 * 16) by lia. rewrite N.div_add, N.mod_add, N.div_small, N.mod_small by lia. lia. }
    destruct (D 0) as [D1 D2]. rewrite N.mul_0_r, N.add_0_r in D2. repeat split.
    + cbn [from_compact]. rewrite D1, D2, nibbles_pairs_even by assumption. destruct leaf; [now rewrite <- app_comm_cons|]. cbn. now rewrite app_nil_r.
    + constructor; [unfold is_byte; destruct leaf; lia|exact W].
    + rewrite len_cons in *. unfold len in *. lia.
    + exact IL.
  - destruct (pairs_wf (length h) h ltac:(lia) F) as [W K]. repeat split.
    + cbn [from_compact]. rewrite N.add_0_l. destruct leaf; cbn [N.div N.div_eucl]; [change (32 / 16) with 2|change (0 / 16) with 0];
        rewrite nibbles_pairs_even by assumption; rewrite E; [reflexivity|now rewrite app_nil_r].
    + constructor; [unfold is_byte; destruct leaf; lia|exact W].
    + rewrite len_cons. unfold len in *. lia.
    + exact IL.
Qed.
Lemma is_leaf_term k : term k -> is_leaf k = Ok true.
Proof. intros T. destruct (term_split _ T) as (h & -> & _). unfold is_leaf. now rewrite rev_app_distr. Qed.
Lemma is_leaf_nib k : k <> [] -> Forall nib k -> is_leaf k = Ok false.
Proof.
  intros NE F. destruct (compact_ok k (or_intror (conj NE F))) as (_ & _ & _ & ->).
  destruct (last k 0 =? 16) eqn:E; [|reflexivity]. apply N.eqb_eq in E. pose proof (last_In k 0 NE) as I. rewrite Forall_forall in F.
  specialize (F _ I). unfold nib in F. lia.
Qed.

(* ---------------- sizes ---------------- *)
Lemma enc_header_len base l : l < 2 ^ 64 -> len (enc_header base l) <= 9.
Proof.
  intros H. unfold enc_header. destruct (l <? 56); [unfold len; cbn [length]; lia|]. rewrite len_cons. unfold len. rewrite be_min_length. pose proof (nbytes_le_8 l H). lia.
Qed.
Lemma enc_str_max b : len b < 2 ^ 64 -> len (enc_str b) <= len b + 9.
Proof.
  intros H. destruct (enc_str_cases b) as [(x & -> & Hx & ->)|[-> _]]; [unfold len; cbn [length]; lia|]. rewrite len_app. pose proof (enc_header_len 128 (len b) H). lia.
Qed.
Lemma enc_header_wf base l : base + 63 < 256 -> l < 2 ^ 64 -> wf_bytes (enc_header base l).
Proof.
  intros B H. unfold enc_header. destruct (N.ltb_spec l 56).
  - constructor; [unfold is_byte; lia|constructor].
  - constructor; [|apply be_min_wf]. pose proof (nbytes_le_8 l H). unfold is_byte. lia.
Qed.
Lemma enc_str_wf b : wf_bytes b -> len b < 2 ^ 64 -> wf_bytes (enc_str b).
Proof.
  intros W H. destruct (enc_str_cases b) as [(x & -> & Hx & ->)|[-> _]]; [exact W|]. apply wf_bytes_app. split; [|exact W]. now apply enc_header_wf.
Qed.
Lemma enc_list_wf l : Forall wf_bytes l -> len (concat l) < 2 ^ 64 -> wf_bytes (enc_list l).
Proof.
  intros F H. unfold enc_list. apply wf_bytes_app. split; [now apply enc_header_wf|]. clear H. induction F as [|x l W F IH]; cbn; [constructor|].
  apply wf_bytes_app. now split.
Qed.
Lemma concat_len_bound l m : Forall (fun x => len x <= m) l -> len (concat l) <= m * N.of_nat (length l).
Proof. induction 1 as [|x l H F IH]; cbn [concat length]; [rewrite len_nil; lia|]. rewrite len_app. lia. Qed.

Section Codec.
  Variable keccak : bytes -> bytes.
  Hypothesis keccak_32 : forall b, length (keccak b) = 32%nat.
  Hypothesis keccak_wf : forall b, wf_bytes (keccak b).

  Definition item_of (e : bytes) : bytes := if len e <? 32 then e else enc_str (keccak e).
  Fixpoint encT (t : tree) : bytes :=
    match t with
    | TE => [128]
    | TL k v => enc_list [enc_str (encode_compact k); enc_str v]
    | TX x c => enc_list [enc_str (encode_compact x); item_of (encT c)]
    | TB ts => enc_list (map (fun c => item_of (encT c)) ts ++ [enc_str []])
    end.
  Definition itemT (t : tree) : bytes := item_of (encT t).
  Definition hashed (e : bytes) : bool := negb (len e <? 32).
  (** The node that decoding gives: below it, what was hashed stays a hash. *)
  Fixpoint shallow (t : tree) : node :=
    match t with
    | TE => Empty
    | TL k v => Leaf k v
    | TX x c => Ext x (if len (encT c) <? 32 then shallow c else HashN (keccak (encT c)))
    | TB ts => Branch (map (fun c => if len (encT c) <? 32 then shallow c else HashN (keccak (encT c))) ts) None
    end.
  Definition cnode (t : tree) : node := if len (encT t) <? 32 then shallow t else HashN (keccak (encT t)).

  Lemma keccak_len b : len (keccak b) = 32.
  Proof. unfold len. now rewrite keccak_32. Qed.
  Lemma hash_item b : is_item (enc_str (keccak b)) /\ len (enc_str (keccak b)) = 33.
  Proof.
    split; [apply is_item_str; [apply keccak_wf|rewrite keccak_len; reflexivity]|].
    destruct (enc_str_cases (keccak b)) as [(x & E & _)|[-> _]].
    - pose proof (keccak_32 b) as K. rewrite E in K. discriminate K.
    - rewrite len_app, keccak_len. reflexivity.
  Qed.
  Lemma item_of_max e : len (item_of e) <= 33.
  Proof. unfold item_of. destruct (N.ltb_spec (len e) 32); [lia|]. now rewrite (proj2 (hash_item e)). Qed.
  Lemma item_of_item e : is_item e -> is_item (item_of e).
  Proof. unfold item_of. destruct (len e <? 32); [easy|]. intros _. apply hash_item. Qed.
  Lemma item_of_wf e : wf_bytes e -> wf_bytes (item_of e).
  Proof.
    unfold item_of. destruct (len e <? 32); [easy|]. intros _. apply enc_str_wf; [apply keccak_wf|rewrite keccak_len; reflexivity].
  Qed.
  Lemma is_item_te : is_item [128].
  Proof. apply (is_item_str []); [constructor|reflexivity]. Qed.

  Lemma sizes2 k e : path k -> len k < 2 ^ 32 -> len e < 2 ^ 40 -> len (concat [enc_str (encode_compact k); e]) < 2 ^ 64.
  Proof.
    intros P L E. destruct (compact_ok k P) as (_ & _ & C & _). cbn [concat]. rewrite !len_app, len_nil.
    pose proof (enc_str_max (encode_compact k) ltac:(lia)). lia.
  Qed.
  Lemma sizes17 ts : length ts = 16%nat -> len (concat (map (fun c => item_of (encT c)) ts ++ [enc_str []])) < 2 ^ 64.
  Proof.
    intros L. rewrite concat_app, len_app.
    pose proof (concat_len_bound (map (fun c => item_of (encT c)) ts) 33) as B. rewrite map_length, L in B.
    assert (F : Forall (fun x => len x <= 33) (map (fun c => item_of (encT c)) ts)).
    { apply Forall_forall. intros x I. apply in_map_iff in I as (c & <- & _). apply item_of_max. }
    specialize (B F). change (len (concat [enc_str []])) with 1. lia.
  Qed.

  Lemma encT_item t : forall d, wfr d t -> N.of_nat d <= 2 ^ 30 -> is_item (encT t) /\ wf_bytes (encT t).
  Proof.
    induction t as [|k v|x t IH|ts IH] using tree_ind'; intros d W D.
    - split; [apply is_item_te|]. constructor; [reflexivity|constructor].
    - destruct W as [W|W]; [discriminate W|]. inversion W as [? ? ? Tk Lk Nv Wv Lv| |]; subst.
      destruct (compact_ok k (or_introl Tk)) as (_ & Wc & Lc & _). pose proof (enc_str_max v ltac:(lia)).
      assert (S : len (concat [enc_str (encode_compact k); enc_str v]) < 2 ^ 64) by (apply sizes2; [now left|unfold len; lia|lia]).
      split; [now apply is_item_list|]. apply enc_list_wf; [|exact S].
      repeat constructor; apply enc_str_wf; try assumption; try lia. unfold len in *; lia.
    - destruct W as [W|W]; [discriminate W|]. inversion W as [|? e ? ? NX FX TBx Lx Wx|]; subst.
      destruct (compact_ok x (or_intror (conj NX FX))) as (_ & Wc & Lc & _). destruct (IH e (or_intror Wx) ltac:(lia)) as [It Wt].
      pose proof (item_of_max (encT t)).
      assert (S : len (concat [enc_str (encode_compact x); item_of (encT t)]) < 2 ^ 64) by (apply sizes2; [now right|unfold len; lia|lia]).
      split; [now apply is_item_list|]. apply enc_list_wf; [|exact S].
      constructor; [|constructor; [now apply item_of_wf|constructor]]. apply enc_str_wf; try assumption. unfold len in *; lia.
    - destruct W as [W|W]; [discriminate W|]. inversion W as [| |? e ? L16 Le FT US]; subst.
      split; [apply is_item_list; now apply sizes17|]. apply enc_list_wf; [|now apply sizes17].
      apply Forall_app. split; [|constructor; [constructor; [reflexivity|constructor]|constructor]].
      apply Forall_forall. intros y I. apply in_map_iff in I as (c & <- & I). apply item_of_wf.
      rewrite Forall_forall in IH, FT. apply (IH c I e); [now apply FT|lia].
  Qed.
  Lemma itemT_item t d : wfr d t -> N.of_nat d <= 2 ^ 30 -> is_item (itemT t).
  Proof. intros W D. apply item_of_item. eapply encT_item; eauto. Qed.

  Lemma at_list items i x : Forall is_item items -> len (concat items) < 2 ^ 64 -> nth_error items i = Some x -> at_ (enc_list items) i = Some x.
  Proof. intros F L N. unfold at_. now rewrite view_items_list. Qed.
  Lemma is_data_list items : is_data (enc_list items) = false.
  Proof. unfold is_data. rewrite <- (app_nil_r (enc_list items)), is_list_enc_list. reflexivity. Qed.
  Lemma is_data_str b : wf_bytes b -> is_data (enc_str b) = true \/ 56 <= len b.
  Proof.
    intros W. destruct (N.ltb_spec (len b) 56) as [L|L]; [left|now right].
    destruct (enc_str_cases b) as [(x & -> & Hx & ->)|[-> _]]; unfold is_data, is_list.
    - destruct (N.leb_spec 192 x); [lia|reflexivity].
    - unfold enc_header. destruct (N.ltb_spec (len b) 56); [|lia]. cbn [app]. destruct (N.leb_spec 192 (128 + len b)); [lia|reflexivity].
  Qed.
  Lemma decode_hash b f : decode_node (S f) (enc_str (keccak b)) = Ok (HashN (keccak b)).
  Proof.
    cbn [decode_node]. destruct (is_data_str (keccak b) (keccak_wf b)) as [->|X]; [|rewrite keccak_len in X; lia].
    pose proof (size_str (keccak b) [] (keccak_wf b) ltac:(rewrite keccak_len; reflexivity)) as S. rewrite app_nil_r, keccak_32 in S. rewrite S. cbn [Nat.eqb].
    pose proof (data_str (keccak b) [] (keccak_wf b) ltac:(rewrite keccak_len; reflexivity)) as Q. rewrite app_nil_r in Q. now rewrite Q.
  Qed.
  Lemma map_outcome_ok {A B} (g : A -> outcome B) (h : A -> B) l : (forall x, In x l -> g x = Ok (h x)) -> map_outcome g l = Ok (map h l).
  Proof. induction l as [|x l IH]; intros H; cbn; [reflexivity|]. rewrite H by now left. rewrite IH; [reflexivity|]. intros y I. apply H. now right. Qed.
  Lemma nth_map_seq {A} (l : list A) d : map (fun i => nth i l d) (seq 0 (length l)) = l.
  Proof.
    apply (nth_ext _ _ d d); [now rewrite map_length, seq_length|]. intros n L. rewrite map_length, seq_length in L.
    rewrite (nth_indep _ d (nth 0 l d)) by now rewrite map_length, seq_length. rewrite (map_nth (fun i => nth i l d)). now rewrite seq_nth.
  Qed.

  (** Decoding reads a tree's encoding back. *)
  Theorem decode_encT t : forall d f, wfr d t -> N.of_nat d <= 2 ^ 30 -> (length (encT t) < f)%nat -> decode_node f (encT t) = Ok (shallow t).
  Proof.
    induction t as [|k v|x t IH|ts IH] using tree_ind'; intros d f W D Lf.
    - destruct f as [|f]; [lia|]. reflexivity.
    - destruct f as [|f]; [lia|]. destruct W as [W|W]; [discriminate W|]. inversion W as [? ? ? Tk Lk Nv Wv Lv| |]; subst.
      destruct (compact_ok k (or_introl Tk)) as (FC & Wc & Lc & _). pose proof (enc_str_max v ltac:(lia)).
      assert (S : len (concat [enc_str (encode_compact k); enc_str v]) < 2 ^ 64) by (apply sizes2; [now left|unfold len in *; lia|lia]).
      assert (C64 : len (encode_compact k) < 2 ^ 64) by (unfold len in *; lia).
      assert (I : Forall is_item [enc_str (encode_compact k); enc_str v]) by (constructor; [now apply is_item_str|constructor; [apply is_item_str; [assumption|lia]|constructor]]).
      cbn [encT decode_node]. rewrite is_data_list, item_count_list by assumption. cbn [length].
      rewrite (at_list _ 0 (enc_str (encode_compact k))) by easy. cbn [opt_err obnd].
      pose proof (data_str (encode_compact k) [] Wc C64) as Q. rewrite app_nil_r in Q. rewrite Q. cbn [opt_err obnd]. rewrite FC. cbn [obnd].
      rewrite is_leaf_term by exact Tk. cbn [obnd]. rewrite (at_list _ 1 (enc_str v)) by easy. cbn [opt_err obnd].
      pose proof (data_str v [] Wv ltac:(lia)) as R. rewrite app_nil_r in R. now rewrite R.
    - destruct f as [|f]; [lia|]. destruct W as [W|W]; [discriminate W|]. inversion W as [|? e ? ? NX FX TBx Lx Wx|]; subst.
      destruct (compact_ok x (or_intror (conj NX FX))) as (FC & Wc & Lc & _). pose proof (item_of_max (encT t)).
      assert (S : len (concat [enc_str (encode_compact x); item_of (encT t)]) < 2 ^ 64) by (apply sizes2; [now right|unfold len in *; lia|lia]).
      assert (C64 : len (encode_compact x) < 2 ^ 64) by (unfold len in *; lia).
      assert (I : Forall is_item [enc_str (encode_compact x); item_of (encT t)]).
      { constructor; [now apply is_item_str|constructor; [|constructor]]. apply (itemT_item t e); [now right|lia]. }
      assert (Lt : (length (item_of (encT t)) < f)%nat).
      { pose proof (enc_list_len [enc_str (encode_compact x); item_of (encT t)]) as M. cbn [concat] in M. rewrite !len_app, len_nil in M.
        pose proof (enc_str_nonnil (encode_compact x)) as NN. destruct (enc_str (encode_compact x)) as [|z zs] eqn:Z; [easy|].
        rewrite len_cons in M. cbn [encT] in Lf. rewrite Z in Lf. unfold len in M. lia. }
      cbn [encT decode_node]. rewrite is_data_list, item_count_list by assumption. cbn [length].
      rewrite (at_list _ 0 (enc_str (encode_compact x))) by easy. cbn [opt_err obnd].
      pose proof (data_str (encode_compact x) [] Wc C64) as Q. rewrite app_nil_r in Q. rewrite Q. cbn [opt_err obnd]. rewrite FC. cbn [obnd].
      rewrite is_leaf_nib by assumption. cbn [obnd]. rewrite (at_list _ 1 (item_of (encT t))) by easy. cbn [opt_err obnd].
      cbn [shallow]. unfold item_of in *. destruct (len (encT t) <? 32) eqn:E.
      + rewrite (IH e); [reflexivity|now right|lia|exact Lt].
      + destruct f as [|f]; [lia|]. now rewrite decode_hash.
    - destruct f as [|f]; [lia|]. destruct W as [W|W]; [discriminate W|]. inversion W as [| |? e ? L16 Le FT US]; subst.
      pose proof (sizes17 ts L16) as S.
      assert (I : Forall is_item (map (fun c => item_of (encT c)) ts ++ [enc_str []])).
      { apply Forall_app. split; [|constructor; [apply is_item_te|constructor]]. apply Forall_forall. intros y Y. apply in_map_iff in Y as (c & <- & Y).
        rewrite Forall_forall in FT. apply (itemT_item c e); [now apply FT|lia]. }
      cbn [encT decode_node shallow]. rewrite is_data_list, item_count_list by assumption. rewrite app_length, map_length, L16. cbn [length Nat.add].
      assert (G : forall i, In i (seq 0 16) -> (let! r := opt_err (at_ (enc_list (map (fun c => item_of (encT c)) ts ++ [enc_str []])) i) in decode_node f r)
                 = Ok ((fun i => cnode (nth i ts TE)) i)).
      { intros i Hi. apply in_seq in Hi. assert (Li : (i < length ts)%nat) by lia.
        rewrite (at_list _ i (item_of (encT (nth i ts TE)))); [|exact I|exact S|].
        2: { rewrite nth_error_app1 by (rewrite map_length; lia). apply (map_nth_error (fun c => item_of (encT c))). now apply nth_error_nth'. }
        cbn [opt_err obnd]. assert (In (nth i ts TE) ts) as Ini by now apply nth_In.
        assert (Lt : (length (item_of (encT (nth i ts TE))) < f)%nat).
        { pose proof (enc_list_len (map (fun c => item_of (encT c)) ts ++ [enc_str []])) as M. rewrite concat_app, len_app in M.
          pose proof (concat_len_in (item_of (encT (nth i ts TE))) (map (fun c => item_of (encT c)) ts)) as M2.
          specialize (M2 ltac:(apply in_map_iff; eauto)). change (len (concat [enc_str []])) with 1 in M. cbn [encT] in Lf. unfold len in *. lia. }
        unfold cnode, item_of in *. destruct (len (encT (nth i ts TE)) <? 32) eqn:E.
        - rewrite Forall_forall in IH, FT. apply (IH _ Ini e); [now apply FT|lia|exact Lt].
        - destruct f as [|f]; [lia|]. now rewrite decode_hash. }
      rewrite (map_outcome_ok _ _ _ G). cbn [obnd].
      rewrite (at_list _ 16 (enc_str [])); [|exact I|exact S|rewrite nth_error_app2 by (rewrite map_length; lia); rewrite map_length, L16; reflexivity].
      cbn [opt_err obnd]. change (is_empty_item (enc_str [])) with true. cbn iota.
      replace (map (fun i => cnode (nth i ts TE)) (seq 0 16)) with (map cnode ts); [reflexivity|].
      rewrite <- (nth_map_seq ts TE) at 1. rewrite L16, map_map. reflexivity.
  Qed.
  Corollary decode_ok t d : wfr d t -> N.of_nat d <= 2 ^ 30 -> decode (encT t) = Ok (shallow t).
  Proof. intros W D. unfold decode. eapply decode_encT; eauto. Qed.
End Codec.
