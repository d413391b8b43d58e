(** C102: what a proof accepted by the Merkle precompile says. *)
From Coq Require Import List NArith Lia Permutation.
From Verif Require Import Bytes BytesProofs Rlp TxModel AbiModel CbmtModel AbiProps.
Import ListNotations.
Local Open Scope N_scope.

(* ---------------------------------------------------------------------- *)
(** * Specification: the complete binary tree of a list of leaves *)
Section Spec.
  Variable merge : bytes -> bytes -> bytes.
  (** [at_node i] are the values of the nodes of the tree of [leaves]: leaves last, each other node the hash of its two children *)
  Definition tree (leaves : list bytes) (at_node : N -> bytes) : Prop :=
    let n := N.of_nat (List.length leaves) in
    0 < n /\ (forall k, (k < List.length leaves)%nat -> nth_error leaves k = Some (at_node (n - 1 + N.of_nat k))) /\
    (forall i, i + 1 < n -> at_node i = merge (at_node (2 * i + 1)) (at_node (2 * i + 2))).
  (** a collision of the hash *)
  Definition collision : Prop := exists a b c d, (a, b) <> (c, d) /\ merge a b = merge c d.
  (** a value that is the hash of two others *)
  Definition merged (v : bytes) : Prop := exists a b, v = merge a b.
End Spec.

(* ---------------------------------------------------------------------- *)
(** * Indices *)
Lemma lxor1_even i : N.even i = true -> N.lxor i 1 = i + 1.
Proof. intros H. apply N.even_spec in H as [k ->]. destruct k; reflexivity. Qed.
Lemma lxor1_odd i : N.odd i = true -> N.lxor i 1 = i - 1.
Proof. intros H. apply N.odd_spec in H as [k ->]. destruct k; [reflexivity|]. change (2 * N.pos p + 1) with (N.pos p~1). reflexivity. Qed.
Lemma sibling_odd p : 2 * p + 2 < 2 ^ 32 -> sibling (2 * p + 1) = Ok (2 * p + 2).
Proof.
  intros H. unfold sibling. destruct (N.eqb_spec (2 * p + 1) 0); [lia|]. destruct (N.ltb_spec (2 * p + 1 + 1) (2 ^ 32)); [|lia].
  rewrite lxor1_even; [f_equal; lia|]. apply N.even_spec. exists (p + 1). lia.
Qed.
Lemma sibling_even p : 2 * p + 3 < 2 ^ 32 -> sibling (2 * p + 2) = Ok (2 * p + 1).
Proof.
  intros H. unfold sibling. destruct (N.eqb_spec (2 * p + 2) 0); [lia|]. destruct (N.ltb_spec (2 * p + 2 + 1) (2 ^ 32)); [|lia].
  rewrite lxor1_odd; [f_equal; lia|]. apply N.odd_spec. exists (p + 1). lia.
Qed.
Lemma parent_odd p : parent (2 * p + 1) = p.
Proof. unfold parent. destruct (N.eqb_spec (2 * p + 1) 0); [lia|]. replace (2 * p + 1 - 1) with (p * 2) by lia. apply N.div_mul. discriminate. Qed.
Lemma parent_even p : parent (2 * p + 2) = p.
Proof.
  unfold parent. destruct (N.eqb_spec (2 * p + 2) 0); [lia|]. replace (2 * p + 2 - 1) with (1 + p * 2) by lia. rewrite N.div_add by discriminate. reflexivity.
Qed.
Lemma left_odd p : is_left (2 * p + 1) = true.
Proof. apply N.odd_spec. exists p. reflexivity. Qed.
Lemma left_even p : is_left (2 * p + 2) = false.
Proof. unfold is_left. rewrite <- N.negb_even. replace (2 * p + 2) with (2 * (p + 1)) by lia. rewrite N.even_mul. reflexivity. Qed.
Lemma split_index i : i <> 0 -> exists p, i = 2 * p + 1 \/ i = 2 * p + 2.
Proof.
  intros H. destruct (N.even i) eqn:E.
  - apply N.even_spec in E as [k ->]. exists (k - 1). right. lia.
  - assert (O : N.odd i = true) by (rewrite <- N.negb_even, E; reflexivity). apply N.odd_spec in O as [k ->]. exists k. left. lia.
Qed.

(* ---------------------------------------------------------------------- *)
(** * What is accepted *)
Section Sound.
  Context (merge : bytes -> bytes -> bytes) (leaves : list bytes) (at_node : N -> bytes).
  Context (T : tree merge leaves at_node) (NC : ~ collision merge).
  Notation n := (N.of_nat (List.length leaves)).
  (** no leaf is itself the hash of two values *)
  Context (NM : forall v, In v leaves -> ~ merged merge v).
  Lemma merge_inj a b c d : merge a b = merge c d -> a = c /\ b = d.
  Proof using NC.
    intros H. destruct (list_eq_dec N.eq_dec a c) as [->|N1]; [destruct (list_eq_dec N.eq_dec b d) as [->|N2]; [auto|]|]; exfalso; apply NC;
    [exists c, b, c, d|exists a, b, c, d]; (split; [congruence|exact H]).
  Qed.
  (** the value of a node of the tree *)
  Definition right (x : N * bytes) : Prop := fst x + 1 < 2 * n /\ snd x = at_node (fst x).
  Lemma node_leaf i : n <= i + 1 -> i + 1 < 2 * n -> In (at_node i) leaves.
  Proof using T.
    intros H1 H2. destruct T as (P & L & _). assert (K : (N.to_nat (i + 1 - n) < List.length leaves)%nat) by lia. specialize (L _ K).
    rewrite N2Nat.id in L. replace (n - 1 + (i + 1 - n)) with i in L by lia. apply nth_error_In in L. exact L.
  Qed.
  Lemma right_children p a b : right (p, merge a b) -> right (2 * p + 1, a) /\ right (2 * p + 2, b).
  Proof using T NC NM.
    intros [H1 H2]. cbn [fst snd] in *. destruct T as (P & L & M). destruct (N.lt_ge_cases (p + 1) n) as [I|I].
    - rewrite (M p I) in H2. apply merge_inj in H2 as [-> ->]. split; (split; cbn [fst snd]; [lia|reflexivity]).
    - exfalso. apply (NM (at_node p) (node_leaf p I H1)). exists a, b. symmetry. exact H2.
  Qed.
  Lemma right_root v : v = at_node 0 -> right (0, v).
  Proof using T. intros ->. split; [cbn; destruct T as (P & _); lia|reflexivity]. Qed.
  Definition up (i : N) (v s : bytes) : N * bytes := (parent i, if is_left i then merge v s else merge s v).
  Lemma up_right i v s : i <> 0 -> right (up i v s) -> right (i, v) /\ forall x, sibling i = Ok x -> right (x, s).
  Proof using T NC NM.
    intros Z R. destruct (split_index i Z) as [p [->| ->]]; unfold up in R.
    - rewrite parent_odd, left_odd in R. apply right_children in R as [R1 R2]. split; [exact R1|]. intros x X.
      destruct (N.lt_ge_cases (2 * p + 2) (2 ^ 32)) as [B|B]; [rewrite (sibling_odd p B) in X; injection X as <-; exact R2|].
      unfold sibling in X. destruct (N.eqb_spec (2 * p + 1) 0); [lia|]. destruct (N.ltb_spec (2 * p + 1 + 1) (2 ^ 32)); [lia|discriminate X].
    - rewrite parent_even, left_even in R. apply right_children in R as [R1 R2]. split; [exact R2|]. intros x X.
      destruct (N.lt_ge_cases (2 * p + 3) (2 ^ 32)) as [B|B]; [rewrite (sibling_even p B) in X; injection X as <-; exact R1|].
      unfold sibling in X. destruct (N.eqb_spec (2 * p + 2) 0); [lia|]. destruct (N.ltb_spec (2 * p + 2 + 1) (2 ^ 32)); [lia|discriminate X].
  Qed.

  (** Whatever is accepted rests on at least one node that is right, and all of its nodes are if none is left out. *)
  Lemma climb_sound k : forall q lemmas v, climb merge k q lemmas = Ok (Some v) -> v = at_node 0 ->
    exists kept out, Permutation q (kept ++ out) /\ kept <> [] /\ Forall right kept.
  Proof using T NC NM.
    induction k as [|k IH]; intros q lemmas v H E; [discriminate H|]. destruct q as [|[i w] q1]; [discriminate H|]. cbn [climb] in H.
    destruct (N.eqb_spec i 0) as [->|Z].
    - destruct lemmas; [|discriminate H]. destruct q1; [|discriminate H]. injection H as ->. exists [(0, v)], []. split; [reflexivity|]. split; [discriminate|].
      constructor; [apply right_root, E|constructor].
    - assert (FL : match lemmas with [] => climb merge k q1 [] | s :: ls => climb merge k (q1 ++ [up i w s]) ls end = Ok (Some v) ->
        exists kept out, Permutation ((i, w) :: q1) (kept ++ out) /\ kept <> [] /\ Forall right kept).
      { intros X. destruct lemmas as [|s ls].
        - destruct (IH _ _ _ X E) as (kept & out & P & NE & F). exists kept, ((i, w) :: out). split; [|split; assumption].
          rewrite P. apply Permutation_middle.
        - destruct (IH _ _ _ X E) as (kept & out & P & NE & F). assert (IU : In (up i w s) (kept ++ out)) by (eapply Permutation_in; [exact P|apply in_or_app; right; left; reflexivity]).
          apply in_app_or in IU as [IU|IU].
          + apply in_split in IU as (k1 & k2 & ->). apply Forall_app in F as [F1 F2]. inversion F2 as [|? ? F3 F4]; subst.
            apply up_right in F3 as [F3 _]; [|exact Z]. exists ((i, w) :: k1 ++ k2), out. split; [|split; [discriminate|constructor; [exact F3|apply Forall_app; split; assumption]]].
            cbn [app]. constructor. apply (Permutation_app_inv_r [up i w s]). rewrite P. rewrite <- !app_assoc. cbn [app]. rewrite <- (Permutation_middle k1 (k2 ++ out)).
            rewrite !app_assoc. apply Permutation_cons_append.
          + apply in_split in IU as (o1 & o2 & ->). exists kept, ((i, w) :: o1 ++ o2). split; [|split; assumption].
            rewrite <- Permutation_middle. constructor. apply (Permutation_app_inv_r [up i w s]). rewrite P. rewrite <- !app_assoc. apply Permutation_app_head.
            rewrite <- Permutation_middle. rewrite app_assoc. apply Permutation_cons_append. }
      destruct q1 as [|[j s] q2]; [exact (FL H)|]. destruct (sibling i) as [x| |] eqn:S; try discriminate H. destruct (N.eqb_spec j x) as [->|]; [|exact (FL H)].
      fold (up i w s) in H. destruct (IH _ _ _ H E) as (kept & out & P & NE & F).
      assert (IU : In (up i w s) (kept ++ out)) by (eapply Permutation_in; [exact P|apply in_or_app; right; left; reflexivity]).
      apply in_app_or in IU as [IU|IU].
      + apply in_split in IU as (k1 & k2 & ->). apply Forall_app in F as [F1 F2]. inversion F2 as [|? ? F3 F4]; subst.
        apply up_right in F3 as [F3 F5]; [|exact Z]. exists ((i, w) :: (x, s) :: k1 ++ k2), out.
        split; [|split; [discriminate|constructor; [exact F3|constructor; [apply F5, S|apply Forall_app; split; assumption]]]].
        cbn [app]. do 2 constructor. apply (Permutation_app_inv_r [up i w s]). rewrite P. rewrite <- !app_assoc. cbn [app]. rewrite <- (Permutation_middle k1 (k2 ++ out)).
        rewrite !app_assoc. apply Permutation_cons_append.
      + apply in_split in IU as (o1 & o2 & ->). exists kept, ((i, w) :: (x, s) :: o1 ++ o2). split; [|split; assumption].
        rewrite <- Permutation_middle. constructor. rewrite <- Permutation_middle. constructor. apply (Permutation_app_inv_r [up i w s]). rewrite P. rewrite <- !app_assoc. apply Permutation_app_head.
        rewrite <- Permutation_middle. rewrite app_assoc. apply Permutation_cons_append.
  Qed.
End Sound.

(* ---------------------------------------------------------------------- *)
(** * What can be proved *)
Lemma size_half p : (1 + N.size_nat p <= N.size_nat (2 * p + 1))%nat.
Proof. destruct p; apply Nat.le_refl. Qed.
Lemma size_half2 p : (1 + N.size_nat p <= N.size_nat (2 * p + 2))%nat.
Proof.
  destruct p as [|p]; [repeat constructor|]. replace (2 * N.pos p + 2) with (2 * N.succ (N.pos p)) by lia.
  change (S (Pos.size_nat p) <= S (Pos.size_nat (Pos.succ p)))%nat. apply le_n_S. induction p; cbn; lia.
Qed.
Lemma turns_app a b : (turns (a ++ b) + 1 = turns a + turns b)%nat.
Proof. induction a as [|[i v] a IH]; cbn [app turns]; lia. Qed.

  (** consecutive nodes, the largest first *)
  Fixpoint desc (hi : N) (k : nat) : list N := match k with O => [] | S k' => hi :: desc (hi - 1) k' end.
  Lemma desc_snoc hi k : desc hi (S k) = desc hi k ++ [hi - N.of_nat k].
  Proof.
    revert hi. induction k as [|k IH]; intros hi; [cbn; rewrite N.sub_0_r; reflexivity|]. change (desc hi (S (S k))) with (hi :: desc (hi - 1) (S k)). rewrite IH.
    cbn [desc app]. do 3 f_equal. lia.
  Qed.

Section Complete.
  Context (merge : bytes -> bytes -> bytes) (leaves : list bytes) (at_node : N -> bytes).
  Context (T : tree merge leaves at_node).
  Notation n := (N.of_nat (List.length leaves)).
  Context (Small : n < 2 ^ 31).
  (** any node, by the siblings above it *)
  Lemma path_ok m : forall i, i < m -> i + 1 < 2 * n -> exists lemmas, forall k, (turns [(i, at_node i)] <= k)%nat -> climb merge k [(i, at_node i)] lemmas = Ok (Some (at_node 0)).
  Proof using T.
    clear Small. induction m as [|m IH] using N.peano_ind; intros i Hi Hn; [lia|]. destruct (N.eq_dec i 0) as [->|Z].
    - exists []. intros [|k] Hk; [cbn in Hk; lia|]. reflexivity.
    - destruct T as (P & L & M). destruct (split_index i Z) as [p [->| ->]].
      + destruct (IH p ltac:(lia) ltac:(lia)) as [ls H]. exists (at_node (2 * p + 2) :: ls). intros [|k] Hk; [cbn in Hk; lia|]. cbn [climb].
        destruct (N.eqb_spec (2 * p + 1) 0); [lia|]. rewrite parent_odd, left_odd. cbn [app]. rewrite <- (M p) by lia. apply H. cbn [turns] in *. pose proof (size_half p). lia.
      + destruct (IH p ltac:(lia) ltac:(lia)) as [ls H]. exists (at_node (2 * p + 1) :: ls). intros [|k] Hk; [cbn in Hk; lia|]. cbn [climb].
        destruct (N.eqb_spec (2 * p + 2) 0); [lia|]. rewrite parent_even, left_even. cbn [app]. rewrite <- (M p) by lia. apply H. cbn [turns] in *. pose proof (size_half2 p). lia.
  Qed.
  Definition nodes (l : list N) : list (N * bytes) := map (fun j => (j, at_node j)) l.
  Lemma all_ok m : N.of_nat m + 1 <= n -> forall k, (turns (nodes (desc (2 * N.of_nat m) (S m))) <= k)%nat ->
    climb merge k (nodes (desc (2 * N.of_nat m) (S m))) [] = Ok (Some (at_node 0)).
  Proof using T Small.
    induction m as [|m IH]; intros Hm [|k] Hk; try (cbn in Hk; lia); [reflexivity|]. set (p := N.of_nat m) in *.
    assert (E : 2 * N.of_nat (S m) = 2 * p + 2) by lia. rewrite E in *. destruct T as (P & L & M).
    change (desc (2 * p + 2) (S (S m))) with (2 * p + 2 :: 2 * p + 2 - 1 :: desc (2 * p + 2 - 1 - 1) m) in *.
    assert (E1 : 2 * p + 2 - 1 = 2 * p + 1) by lia. assert (E2 : 2 * p + 2 - 1 - 1 = 2 * p) by lia. rewrite E1 in *. replace (2 * p + 1 - 1) with (2 * p) in * by lia.
    assert (B : 2 * p + 3 < 2 ^ 32) by (change (2 ^ 31) with 2147483648 in Small; change (2 ^ 32) with 4294967296; lia).
    cbn [nodes map climb]. destruct (N.eqb_spec (2 * p + 2) 0); [lia|]. rewrite (sibling_even p B), N.eqb_refl, parent_even, left_even. rewrite <- (M p) by lia.
    assert (Q : map (fun j => (j, at_node j)) (desc (2 * p) m) ++ [(p, at_node p)] = nodes (desc (2 * p) (S m))).
    { rewrite desc_snoc. unfold nodes. rewrite map_app. cbn [map]. replace (2 * p - N.of_nat m) with p by lia. reflexivity. }
    rewrite Q. apply IH; [lia|]. rewrite <- Q. cbn [nodes map turns] in Hk. fold (nodes (desc (2 * p) m)) in Hk |- *.
    pose proof (turns_app (nodes (desc (2 * p) m)) [(p, at_node p)]) as TA. cbn [turns] in TA. pose proof (size_half2 p). lia.
  Qed.
End Complete.

(* ---------------------------------------------------------------------- *)
(** * Sorting *)
From Coq Require Import Sorted.
Definition above (x y : N * bytes) : Prop := fst y < fst x.
Lemma insert_perm x l : Permutation (insert_desc x l) (x :: l).
Proof. induction l as [|y l IH]; [reflexivity|]. cbn [insert_desc]. destruct (fst y <? fst x); [reflexivity|]. rewrite IH. apply perm_swap. Qed.
Lemma sort_fold l : forall acc, Permutation (fold_left (fun acc x => insert_desc x acc) l acc) (l ++ acc).
Proof. induction l as [|x l IH]; intros acc; [reflexivity|]. cbn [fold_left app]. rewrite IH, insert_perm. symmetry. apply Permutation_middle. Qed.
Lemma sort_perm l : Permutation (sort_desc l) l.
Proof. unfold sort_desc. rewrite sort_fold, app_nil_r. reflexivity. Qed.
Lemma insert_sorted x l : StronglySorted above l -> Forall (fun y => fst y <> fst x) l -> StronglySorted above (insert_desc x l).
Proof.
  induction l as [|y l IH]; intros S F; [constructor; constructor|]. inversion S as [|? ? S1 S2]; subst. inversion F as [|? ? F1 F2]; subst. cbn [insert_desc].
  destruct (N.ltb_spec (fst y) (fst x)) as [L|L].
  - constructor; [exact S|]. constructor; [exact L|]. eapply Forall_impl; [|exact S2]. intros z Z. unfold above in *. lia.
  - constructor; [apply IH; assumption|]. eapply Permutation_Forall; [symmetry; apply insert_perm|]. constructor; [unfold above; lia|exact S2].
Qed.
Lemma sort_sorted l : NoDup (map fst l) -> StronglySorted above (sort_desc l).
Proof.
  intros N. unfold sort_desc. assert (G : forall l acc, NoDup (map fst (l ++ acc)) -> StronglySorted above acc -> StronglySorted above (fold_left (fun acc x => insert_desc x acc) l acc)).
  { clear. induction l as [|x l IH]; intros acc N S; [exact S|]. cbn [fold_left]. apply IH.
    - eapply Permutation_NoDup; [|exact N]. cbn [app]. apply Permutation_map. rewrite insert_perm. apply Permutation_middle.
    - apply insert_sorted; [exact S|]. cbn [app map] in N. inversion N as [|? ? N1 N2]; subst. apply Forall_forall. intros y Y E. apply N1. rewrite <- E. apply in_map, in_or_app. right. exact Y. }
  apply G; [rewrite app_nil_r; exact N|constructor].
Qed.
Lemma sorted_unique l m : StronglySorted above l -> StronglySorted above m -> Permutation l m -> l = m.
Proof.
  revert m. induction l as [|x l IH]; intros m S1 S2 P; [apply Permutation_nil in P; subst; reflexivity|]. destruct m as [|y m]; [symmetry in P; apply Permutation_nil in P; discriminate P|].
  inversion S1 as [|? ? A1 A2]; subst. inversion S2 as [|? ? B1 B2]; subst. rewrite Forall_forall in A2, B2.
  assert (E : x = y).
  { assert (X : In x (y :: m)) by (eapply Permutation_in; [exact P|left; reflexivity]). assert (Y : In y (x :: l)) by (eapply Permutation_in; [symmetry; exact P|left; reflexivity]).
    destruct X as [X|X]; [symmetry; exact X|]. destruct Y as [Y|Y]; [exact Y|]. specialize (A2 _ Y). specialize (B2 _ X). unfold above in *. lia. }
  subst y. f_equal. apply IH; try assumption. apply Permutation_cons_inv in P. exact P.
Qed.
Lemma sort_of l m : StronglySorted above m -> Permutation l m -> sort_desc l = m.
Proof.
  intros S P. apply sorted_unique; [|exact S|rewrite sort_perm; exact P]. apply sort_sorted. eapply Permutation_NoDup; [apply Permutation_map; symmetry; exact P|].
  clear P. induction S as [|x m S IH F]; [constructor|]. cbn [map]. constructor; [|exact IH]. intros I. apply in_map_iff in I as (y & E & I). rewrite Forall_forall in F. specialize (F _ I). unfold above in F. lia.
Qed.
Lemma desc_sorted node k : forall hi, N.of_nat k <= hi + 1 -> StronglySorted above (nodes node (desc hi k)) /\ Forall (fun x => fst x <= hi) (nodes node (desc hi k)).
Proof.
  induction k as [|k IH]; intros hi H; [split; constructor|]. cbn [desc nodes map]. fold (nodes node (desc (hi - 1) k)). destruct k as [|k].
  - split; constructor; try constructor. cbn. lia.
  - destruct (IH (hi - 1) ltac:(lia)) as [S F]. split.
    + constructor; [exact S|]. eapply Forall_impl; [|exact F]. intros y Y. cbn beta in Y. unfold above. cbn [fst]. lia.
    + constructor; [cbn; lia|]. eapply Forall_impl; [|exact F]. intros y Y. cbn in *. lia.
Qed.
(** any list of pairs can be given, whatever the order in which leaves are paired *)
Lemma pairs_given arrange (A : forall l, Permutation (arrange l) l) (P : list (N * bytes)) : exists indices,
  Permutation (combine indices (arrange (map snd P))) P /\ List.length indices = List.length (map snd P).
Proof.
  destruct (Permutation_map_inv snd P (A (map snd P))) as (P' & E & Q). exists (map fst P'). rewrite E. split.
  - assert (X : combine (map fst P') (map snd P') = P') by (clear; induction P' as [|[a b] l IH]; [reflexivity|]; cbn; rewrite IH; reflexivity). rewrite X. symmetry. exact Q.
  - rewrite !map_length. symmetry. apply Permutation_length, Q.
Qed.

(* ---------------------------------------------------------------------- *)
(** * C102 *)
Lemma skipn_nth (l : list bytes) k v : nth_error l k = Some v -> skipn k l = v :: skipn (S k) l.
Proof. revert l. induction k as [|k IH]; intros [|y l] H; try discriminate H; [injection H as ->; reflexivity|]. exact (IH l H). Qed.

Section C102.
  Context (merge : bytes -> bytes -> bytes) (arrange : list bytes -> list bytes) (A : forall l, Permutation (arrange l) l).
  Notation verify := (verify merge arrange).

  (** The two trees of a block and the root its header has. *)
  Record ckb_block := CkbBlock { cb_raw : list bytes; cb_wit : list bytes; cb_raw_at : N -> bytes; cb_wit_at : N -> bytes }.
  Definition block_ok (b : ckb_block) : Prop := tree merge (cb_raw b) (cb_raw_at b) /\ tree merge (cb_wit b) (cb_wit_at b).
  Definition txs_root (b : ckb_block) : bytes := merge (cb_raw_at b 0) (cb_wit_at b 0).
  Definition side (b : ckb_block) (t : N) : list bytes := if t =? 0 then cb_raw b else cb_wit b.
  Definition side_at (b : ckb_block) (t : N) : N -> bytes := if t =? 0 then cb_raw_at b else cb_wit_at b.
  Lemma side_tree b t : block_ok b -> tree merge (side b t) (side_at b t).
  Proof. intros [H1 H2]. unfold side, side_at. destruct (t =? 0); assumption. Qed.
  Lemma arrange_one v : arrange [v] = [v].
  Proof using A. apply Permutation_length_1_inv. symmetry. apply A. Qed.

  (** Accepted means: the roots are those of the block, and some node given is one of the tree. *)
  Theorem C102_some b p : ~ collision merge -> block_ok b -> (forall v, In v (side b (pl_type p)) -> ~ merged merge v) ->
    pl_txs p = txs_root b -> verify p = Ok tt ->
    pl_raw p = cb_raw_at b 0 /\ pl_wit p = cb_wit_at b 0 /\
    exists i v, In (i, v) (combine (mp_indices (pl_proof p)) (arrange (mp_leaves (pl_proof p)))) /\
      i + 1 < 2 * N.of_nat (List.length (side b (pl_type p))) /\ v = side_at b (pl_type p) i.
  Proof using.
    clear A. intros NC B NM E H. unfold CbmtModel.verify in H. destruct (beqb (merge (pl_raw p) (pl_wit p)) (pl_txs p)) eqn:R; [|discriminate H]. apply beqb_eq in R.
    rewrite E in R. unfold txs_root in R. assert (MI : pl_raw p = cb_raw_at b 0 /\ pl_wit p = cb_wit_at b 0) by (eapply merge_inj; eassumption). destruct MI as [M1 M2].
    split; [exact M1|]. split; [exact M2|]. destruct (proof_root merge arrange (pl_proof p)) as [[r|]| |] eqn:P; try discriminate H.
    destruct (beqb r _) eqn:Q; [|discriminate H]. apply beqb_eq in Q. unfold proof_root in P. destruct (negb _) eqn:L; [discriminate P|]. destruct (mp_leaves (pl_proof p)) as [|l0 ls] eqn:EL; [discriminate P|].
    assert (RV : r = side_at b (pl_type p) 0) by (rewrite Q; unfold side_at; destruct (pl_type p =? 0); assumption).
    destruct (climb_sound merge _ _ (side_tree b (pl_type p) B) NC NM _ _ _ _ P RV) as (kept & out & PM & NE & F).
    destruct kept as [|[i v] kept]; [destruct (NE eq_refl)|]. inversion F as [|? ? [F1 F2] _]; subst. cbn [fst snd] in F1, F2. exists i, v.
    split; [|split; assumption]. eapply Permutation_in; [apply sort_perm|]. eapply Permutation_in; [symmetry; exact PM|]. left. reflexivity.
  Qed.
  (** A proof of one value, which is no hash of two values like the hashes of transactions: it is accepted only for a transaction of the block,
      with its position. *)
  Theorem C102_single_partial b t x w r i v lemmas : ~ collision merge -> block_ok b -> (forall v, In v (side b t) -> ~ merged merge v) -> ~ merged merge v ->
    x = txs_root b -> verify (Payload t x w r (MProof [i] lemmas [v])) = Ok tt ->
    exists k, nth_error (side b t) k = Some v /\ i + 1 = N.of_nat (List.length (side b t)) + N.of_nat k.
  Proof using A.
    intros NC B NM NV E H. destruct (C102_some b (Payload t x w r (MProof [i] lemmas [v])) NC B NM E H) as (_ & _ & i' & v' & I & L & V). cbn [pl_type pl_proof mp_indices mp_leaves] in *.
    rewrite arrange_one in I. destruct I as [I|[]]. injection I as <- <-. destruct (side_tree b t B) as (P & LF & M). set (n := N.of_nat (List.length (side b t))) in *.
    destruct (N.lt_ge_cases (i + 1) n) as [C|C].
    - exfalso. apply NV. rewrite V, (M i C). eexists _, _. reflexivity.
    - exists (N.to_nat (i + 1 - n)). rewrite LF by lia. rewrite N2Nat.id. split; [|lia]. rewrite V. f_equal. f_equal. lia.
  Qed.
  (** Every transaction can be proved. *)
  Theorem C102_complete b t k v : block_ok b -> nth_error (side b t) k = Some v -> exists i lemmas,
    verify (Payload t (txs_root b) (cb_wit_at b 0) (cb_raw_at b 0) (MProof [i] lemmas [v])) = Ok tt.
  Proof using A.
    intros B H. assert (K : (k < List.length (side b t))%nat) by (apply nth_error_Some; rewrite H; discriminate).
    destruct (side_tree b t B) as (P & LF & M) eqn:TT. clear TT. set (n := N.of_nat (List.length (side b t))) in *. specialize (LF k K). rewrite H in LF. injection LF as ->.
    destruct (path_ok merge _ _ (side_tree b t B) (n - 1 + N.of_nat k + 1) (n - 1 + N.of_nat k)) as [ls C]; [lia|unfold n in *; lia|]. exists (n - 1 + N.of_nat k), ls.
    unfold CbmtModel.verify. cbn [pl_raw pl_wit pl_txs pl_type pl_proof]. unfold txs_root. rewrite (proj2 (beqb_eq _ _) eq_refl). unfold proof_root. cbn [mp_leaves mp_indices mp_lemmas List.length Nat.eqb negb].
    rewrite arrange_one. cbn [combine]. change (sort_desc [(n - 1 + N.of_nat k, side_at b t (n - 1 + N.of_nat k))]) with [(n - 1 + N.of_nat k, side_at b t (n - 1 + N.of_nat k))].
    rewrite C by lia. replace (side_at b t 0) with (if t =? 0 then cb_raw_at b 0 else cb_wit_at b 0) by (unfold side_at; destruct (t =? 0); reflexivity).
    rewrite (proj2 (beqb_eq _ _) eq_refl). reflexivity.
  Qed.
  (** Inner nodes are taken for leaves: any node can be proved, among them the root. *)
  Theorem C102_inner_refuted b t i : block_ok b -> i + 1 < N.of_nat (List.length (side b t)) -> exists lemmas,
    verify (Payload t (txs_root b) (cb_wit_at b 0) (cb_raw_at b 0) (MProof [i] lemmas [side_at b t i])) = Ok tt.
  Proof using A.
    intros B H. destruct (path_ok merge _ _ (side_tree b t B) (i + 1) i) as [ls C]; [lia|lia|]. exists ls.
    unfold CbmtModel.verify. cbn [pl_raw pl_wit pl_txs pl_type pl_proof]. unfold txs_root. rewrite (proj2 (beqb_eq _ _) eq_refl). unfold proof_root. cbn [mp_leaves mp_indices mp_lemmas List.length Nat.eqb negb].
    rewrite arrange_one. cbn [combine]. change (sort_desc [(i, side_at b t i)]) with [(i, side_at b t i)].
    rewrite C by lia. replace (side_at b t 0) with (if t =? 0 then cb_raw_at b 0 else cb_wit_at b 0) by (unfold side_at; destruct (t =? 0); reflexivity).
    rewrite (proj2 (beqb_eq _ _) eq_refl). reflexivity.
  Qed.
  (** With several values the proof can be wrong: whatever value, next to the transactions of the block it is accepted as one of them. *)
  Theorem C102_forged_refuted b t fake : block_ok b -> N.of_nat (List.length (side b t)) < 2 ^ 31 -> exists indices,
    verify (Payload t (txs_root b) (cb_wit_at b 0) (cb_raw_at b 0) (MProof indices [] (fake :: rev (side b t)))) = Ok tt.
  Proof using A.
    intros B Sm. destruct (side_tree b t B) as (P & LF & M). set (ls := side b t) in *. set (nd := side_at b t) in *. set (n := N.of_nat (List.length ls)) in *.
    set (D := nodes nd (desc (2 * (n - 1)) (List.length ls))).
    assert (ED : map snd D = rev ls).
    { unfold D. destruct (List.length ls) as [|m] eqn:Lm; [cbn in P; lia|]. assert (En : n - 1 = N.of_nat m) by (unfold n; lia). rewrite En in *.
      assert (G : forall j, (j <= S m)%nat -> map snd (nodes nd (desc (2 * N.of_nat m) j)) = rev (skipn (S m - j) ls)).
      { induction j as [|j IH]; intros Hj; [rewrite Nat.sub_0_r, <- Lm, skipn_all; reflexivity|]. rewrite desc_snoc. unfold nodes. rewrite !map_app. fold (nodes nd (desc (2 * N.of_nat m) j)). rewrite IH by lia.
        cbn [map snd]. assert (Hk : (S m - S j < S m)%nat) by lia. pose proof (LF _ Hk) as X. replace (S m - j)%nat with (S (S m - S j)) by lia.
        assert (SK : skipn (S m - S j) ls = nd (2 * N.of_nat m - N.of_nat j) :: skipn (S (S m - S j)) ls).
        { replace (2 * N.of_nat m - N.of_nat j) with (N.of_nat m + N.of_nat (S m - S j)) by lia. apply skipn_nth, X. }
        rewrite SK. cbn [rev]. reflexivity. }
      rewrite (G (S m)) by lia. rewrite Nat.sub_diag. reflexivity. }
    set (F := (2 * n, fake) :: D).
    assert (SF : StronglySorted above F).
    { destruct (desc_sorted nd (List.length ls) (2 * (n - 1))) as [S1 S2]; [unfold n; lia|]. constructor; [exact S1|]. eapply Forall_impl; [|exact S2]. intros y Y. cbn beta in Y. unfold above. cbn [fst]. lia. }
    destruct (pairs_given arrange A F) as (indices & PI & LI). exists indices. assert (EF : map snd F = fake :: rev ls) by (unfold F; cbn [map snd]; rewrite ED; reflexivity). rewrite EF in *.
    unfold CbmtModel.verify. cbn [pl_raw pl_wit pl_txs pl_type pl_proof]. unfold txs_root. rewrite (proj2 (beqb_eq _ _) eq_refl). unfold proof_root. cbn [mp_leaves mp_indices mp_lemmas].
    rewrite LI, Nat.eqb_refl. cbn [negb]. rewrite (sort_of _ _ SF PI). unfold F. cbn [turns climb Nat.add].
    destruct (N.eqb_spec (2 * n) 0); [lia|].
    assert (R : climb merge (N.size_nat (2 * n) + turns D) D [] = Ok (Some (nd 0))).
    { unfold D. destruct (List.length ls) as [|m] eqn:Lm; [cbn in P; lia|]. assert (En : n - 1 = N.of_nat m) by (unfold n; lia). rewrite En.
      apply (all_ok merge ls nd); [unfold ls, nd; apply side_tree, B|rewrite Lm; exact Sm|rewrite Lm; unfold n in En; lia|lia]. }
    assert (RS : (if beqb (nd 0) (if t =? 0 then cb_raw_at b 0 else cb_wit_at b 0) then Ok tt else Err) = Ok tt).
    { unfold nd, side_at. destruct (t =? 0); rewrite (proj2 (beqb_eq _ _) eq_refl); reflexivity. }
    destruct D as [|[j s] q2] eqn:ED2; [rewrite R; exact RS|].
    assert (Hj : j = 2 * (n - 1)). { unfold D in ED2. destruct (List.length ls) as [|m] eqn:Lm; [cbn in P; lia|]. cbn [desc nodes map] in ED2. injection ED2 as <- _ _. reflexivity. }
    assert (SB : sibling (2 * n) = Ok (2 * n - 1)).
    { replace (2 * n) with (2 * (n - 1) + 2) by lia. rewrite sibling_even; [f_equal; lia|]. change (2 ^ 31) with 2147483648 in Sm. change (2 ^ 32) with 4294967296. unfold n in *. lia. }
    rewrite SB. destruct (N.eqb_spec j (2 * n - 1)); [lia|]. rewrite R. exact RS.
  Qed.
  (** The largest index ends the process. *)
  Theorem C102_panic_refuted t w r j lemmas v1 v2 : j <= 2 ^ 32 - 1 -> verify (Payload t (merge r w) w r (MProof [2 ^ 32 - 1; j] lemmas [v1; v2])) = Panic.
  Proof using A.
    intros J. unfold CbmtModel.verify. cbn [pl_raw pl_wit pl_txs pl_type pl_proof]. rewrite (proj2 (beqb_eq _ _) eq_refl). unfold proof_root. cbn [mp_leaves mp_indices mp_lemmas List.length Nat.eqb negb].
    pose proof (A [v1; v2]) as P. apply Permutation_length in P. destruct (arrange [v1; v2]) as [|a [|b [|? ?]]]; try discriminate P. cbn [combine].
    assert (S : sort_desc [(2 ^ 32 - 1, a); (j, b)] = [(2 ^ 32 - 1, a); (j, b)]).
    { unfold sort_desc. cbn [fold_left insert_desc fst]. destruct (N.ltb_spec (2 ^ 32 - 1) j); [lia|reflexivity]. }
    rewrite S. cbn [turns Nat.add climb]. reflexivity.
  Qed.
End C102.

(* ---------------------------------------------------------------------- *)
(** * The precompile *)
Definition payload_val (p : payload) : list val :=
  [VSeq [VNum (pl_type p); VBytes (pl_txs p); VBytes (pl_wit p); VBytes (pl_raw p);
         VSeq [VSeq (map VNum (mp_indices (pl_proof p))); VSeq (map VBytes (mp_lemmas (pl_proof p))); VSeq (map VBytes (mp_leaves (pl_proof p)))]]].
Definition b32 (b : bytes) : Prop := wf_bytes b /\ List.length b = 32%nat.
Definition payload_ok (p : payload) : Prop :=
  pl_type p < 2 ^ 8 /\ b32 (pl_txs p) /\ b32 (pl_wit p) /\ b32 (pl_raw p) /\
  Forall (fun i => i < 2 ^ 32) (mp_indices (pl_proof p)) /\ Forall b32 (mp_lemmas (pl_proof p)) /\ Forall b32 (mp_leaves (pl_proof p)) /\
  N.of_nat (List.length (mp_indices (pl_proof p))) < 2 ^ 32 /\ N.of_nat (List.length (mp_lemmas (pl_proof p))) < 2 ^ 32 /\ N.of_nat (List.length (mp_leaves (pl_proof p))) < 2 ^ 32.
Lemma payload_typed p : payload_ok p -> typeds payload_ty (payload_val p).
Proof.
  intros (H1 & H2 & H3 & H4 & H5 & H6 & H7 & H8 & H9 & H10). unfold payload_ty, payload_val. split; [|exact I]. split; [split; [exact H1|discriminate]|]. split; [exact H2|]. split; [exact H3|]. split; [exact H4|].
  split; [|exact I]. split; [split; [rewrite map_length; exact H8|]|split; [split; [rewrite map_length; exact H9|]|split; [split; [rewrite map_length; exact H10|]|exact I]]]; apply Forall_map.
  - eapply Forall_impl; [|exact H5]. intros i Hi. split; [exact Hi|discriminate].
  - eapply Forall_impl; [|exact H6]. intros i Hi. exact Hi.
  - eapply Forall_impl; [|exact H7]. intros i Hi. exact Hi.
Qed.
Lemma nums_map l : nums (map VNum l) = Some l.
Proof. induction l as [|x l IH]; [reflexivity|]. cbn. rewrite IH. reflexivity. Qed.
Lemma strs_map l : strs (map VBytes l) = Some l.
Proof. induction l as [|x l IH]; [reflexivity|]. cbn. rewrite IH. reflexivity. Qed.
(** What a caller encodes is what is checked. *)
Theorem C102_input narrow p rest : payload_ok p -> len (enc_args payload_ty (payload_val p) ++ rest) < 2 ^ 32 ->
  parse_input narrow (enc_args payload_ty (payload_val p) ++ rest) = Some p.
Proof.
  intros O L. unfold parse_input. unfold enc_args in *. rewrite (decs_args narrow _ _ _ rest (proj2 (good_all narrow) _ _ (payload_typed p O)) L). cbn [payload_val].
  rewrite nums_map, !strs_map. destruct p as [t x w r [is ls vs]]. reflexivity.
Qed.
(** The answer and its price. *)
Theorem C102_exec merge arrange narrow input limit out gas : mbt_exec merge arrange narrow input limit = Ok (out, gas) <->
  out = [1] /\ gas = 56000 /\ (forall l, limit = Some l -> 56000 <= l) /\ exists p, parse_input narrow input = Some p /\ verify merge arrange p = Ok tt.
Proof.
  unfold mbt_exec. split.
  - intros H. destruct (match limit with Some l => l <? 56000 | None => false end) eqn:G; [discriminate H|].
    destruct (parse_input narrow input) as [p|]; [|discriminate H]. destruct (verify merge arrange p) as [[]| |] eqn:V; try discriminate H. injection H as <- <-.
    split; [reflexivity|]. split; [reflexivity|]. split; [intros l ->; destruct (N.ltb_spec l 56000); [discriminate G|assumption]|]. exists p. auto.
  - intros (-> & -> & G & p & -> & ->). destruct limit as [l|]; [|reflexivity]. specialize (G l eq_refl). destruct (N.ltb_spec l 56000); [lia|reflexivity].
Qed.
(** A call that ends the process of every node that executes it. *)
Theorem C102_crash_refuted merge arrange narrow limit : (forall l, Permutation (arrange l) l) -> (forall a b, b32 (merge a b)) -> (forall l, limit = Some l -> 56000 <= l) ->
  exists input, len input = 512 /\ mbt_exec merge arrange narrow input limit = Panic.
Proof.
  intros A M G. set (z := repeat 0 32). assert (Z : b32 z). { split; [|reflexivity]. apply Forall_forall. intros x X. apply repeat_spec in X as ->. reflexivity. }
  set (p := Payload 0 (merge z z) z z (MProof [2 ^ 32 - 1; 0] [] [z; z])).
  assert (O : payload_ok p).
  { split; [reflexivity|]. split; [apply M|]. split; [exact Z|]. split; [exact Z|]. split; [constructor; [reflexivity|constructor; [reflexivity|constructor]]|]. split; [constructor|].
    split; [constructor; [exact Z|constructor; [exact Z|constructor]]|]. repeat split. }
  assert (L : len (enc_args payload_ty (payload_val p)) = 512).
  { unfold p, payload_val. cbn [pl_type pl_txs pl_wit pl_raw pl_proof mp_indices mp_lemmas mp_leaves map]. destruct (M z z) as [_ ML]. revert ML. generalize (merge z z). intros m ML.
    do 32 (destruct m as [|? m]; [discriminate ML|]). destruct m; [|discriminate ML]. vm_compute. reflexivity. }
  exists (enc_args payload_ty (payload_val p)). split; [exact L|]. unfold mbt_exec.
  assert (G' : match limit with Some l => l <? 56000 | None => false end = false).
  { destruct limit as [l|]; [|reflexivity]. specialize (G l eq_refl). destruct (N.ltb_spec l 56000); [lia|reflexivity]. }
  rewrite G'. pose proof (C102_input narrow p [] O) as I. rewrite app_nil_r in I. rewrite I by (rewrite L; reflexivity). unfold p. rewrite C102_panic_refuted; [reflexivity|exact A|discriminate].
Qed.

(* ---------------------------------------------------------------------- *)
(** * Non-vacuity: three transactions under a hash without collisions *)
Definition ex_merge (a b : bytes) : bytes := len a :: a ++ b.
Lemma ex_free : ~ collision ex_merge.
Proof.
  intros (a & b & c & d & N & E). unfold ex_merge in E. injection E as E1 E2. apply N. clear N. unfold len in E1. apply Nat2N.inj in E1.
  assert (a = c /\ b = d) as [-> ->]; [|reflexivity]. revert c E1 E2. clear. induction a as [|x a IH]; intros [|y c] L E; try discriminate L; [split; [reflexivity|exact E]|].
  injection E as -> E. injection L as L. destruct (IH c L E) as [-> ->]. split; reflexivity.
Qed.
Definition ex_at (a b c : bytes) (i : N) : bytes :=
  match i with 4 => c | 3 => b | 2 => a | 1 => ex_merge b c | _ => ex_merge (ex_merge b c) a end.
Definition ex_block : ckb_block := CkbBlock [[9]; [8]; [7]] [[99]; [98]; [97]] (ex_at [9] [8] [7]) (ex_at [99] [98] [97]).
Example ex_block_ok : block_ok ex_merge ex_block.
Proof.
  assert (T : forall a b c, tree ex_merge [a; b; c] (ex_at a b c)).
  { intros a b c. split; [reflexivity|]. split.
    - intros [|[|[|k]]] K; try reflexivity. cbn in K. lia.
    - intros i Hi. change (N.of_nat (List.length [a; b; c])) with 3 in Hi. assert (i = 0 \/ i = 1) as [->| ->] by lia; reflexivity. }
  split; apply T.
Qed.
Example ex_unmerged v : In v (side ex_block 0) -> ~ merged ex_merge v.
Proof. intros [<-|[<-|[<-|[]]]] (a & b & E); unfold ex_merge in E; injection E as E1 E2; destruct a; try discriminate E1; discriminate E2. Qed.
(** the third transaction with its two siblings, a value of another block with the same siblings, and one smuggled in beside the others *)
Definition ex_pay (is : list N) (ls vs : list bytes) := Payload 0 (txs_root ex_merge ex_block) (cb_wit_at ex_block 0) (cb_raw_at ex_block 0) (MProof is ls vs).
Example ex_verify :
  verify ex_merge (fun l => l) (ex_pay [4] [[8]; [9]] [[7]]) = Ok tt /\ verify ex_merge (fun l => l) (ex_pay [4] [[8]; [9]] [[6]]) = Err /\
  verify ex_merge (fun l => l) (ex_pay [3; 4] [[9]] [[8]; [7]]) = Ok tt /\
  verify ex_merge (fun l => l) (ex_pay [6; 4; 3; 2] [] [[66]; [7]; [8]; [9]]) = Ok tt /\ verify ex_merge (fun l => l) (ex_pay [2 ^ 32 - 1; 3] [] [[66]; [7]]) = Panic.
Proof. vm_compute. repeat split. Qed.

Print Assumptions C102_some.
Print Assumptions C102_single_partial.
Print Assumptions C102_complete.
Print Assumptions C102_inner_refuted.
Print Assumptions C102_forged_refuted.
Print Assumptions C102_panic_refuted.
Print Assumptions C102_input.
Print Assumptions C102_exec.
Print Assumptions C102_crash_refuted.
