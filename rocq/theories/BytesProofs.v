(** Lemmas on byte strings and endian conversions. *)
From Verif Require Import Bytes.

Lemma beqb_eq a b : beqb a b = true <-> a = b.
Proof. unfold beqb. destruct (list_eq_dec N.eq_dec a b); split; congruence. Qed.

Lemma wf_bytesb_spec b : wf_bytesb b = true <-> wf_bytes b.
Proof.
  unfold wf_bytesb, wf_bytes. rewrite forallb_forall, Forall_forall.
  unfold is_byte. split; intros H x Hx; specialize (H x Hx); lia.
Qed.

Lemma wf_bytes_app a b : wf_bytes (a ++ b) <-> wf_bytes a /\ wf_bytes b.
Proof. unfold wf_bytes. apply Forall_app. Qed.

Lemma wf_bytes_rev a : wf_bytes (rev a) <-> wf_bytes a.
Proof.
  unfold wf_bytes. rewrite !Forall_forall. split; intros H x Hx; apply H.
  - rewrite <- in_rev. exact Hx.
  - rewrite in_rev. exact Hx.
Qed.

Lemma wf_bytes_firstn k a : wf_bytes a -> wf_bytes (firstn k a).
Proof.
  unfold wf_bytes. rewrite !Forall_forall. intros H x Hx. apply H.
  rewrite <- (firstn_skipn k a). apply in_or_app. left. exact Hx.
Qed.

Lemma wf_bytes_skipn k a : wf_bytes a -> wf_bytes (skipn k a).
Proof.
  unfold wf_bytes. rewrite !Forall_forall. intros H x Hx. apply H.
  rewrite <- (firstn_skipn k a). apply in_or_app. right. exact Hx.
Qed.

Lemma le_fixed_length k n : length (le_fixed k n) = k.
Proof. revert n; induction k; intros; cbn [le_fixed length]; auto. Qed.

Lemma be_fixed_length k n : length (be_fixed k n) = k.
Proof. unfold be_fixed. rewrite rev_length. apply le_fixed_length. Qed.

Lemma le_fixed_wf k n : wf_bytes (le_fixed k n).
Proof.
  revert n; induction k; intros; cbn [le_fixed]; constructor.
  - unfold is_byte. apply N.mod_lt. lia.
  - apply IHk.
Qed.

Lemma be_fixed_wf k n : wf_bytes (be_fixed k n).
Proof. apply wf_bytes_rev, le_fixed_wf. Qed.

Lemma le_val_fixed k n : n < 256 ^ N.of_nat k -> le_val (le_fixed k n) = n.
Proof.
  revert n; induction k; intros n H.
  - cbn. change (256 ^ N.of_nat 0) with 1 in H. lia.
  - cbn [le_fixed le_val].
    rewrite Nnat.Nat2N.inj_succ, N.pow_succ_r' in H.
    rewrite IHk.
    + pose proof (N.div_mod n 256). lia.
    + apply N.div_lt_upper_bound; lia.
Qed.

Lemma be_val_fixed k n : n < 256 ^ N.of_nat k -> be_val (be_fixed k n) = n.
Proof. intros. unfold be_val, be_fixed. rewrite rev_involutive. now apply le_val_fixed. Qed.

Lemma le_val_bound b : wf_bytes b -> le_val b < 256 ^ N.of_nat (length b).
Proof.
  induction 1 as [|x r Hx Hr IH]; cbn [le_val length].
  - change (256 ^ N.of_nat 0) with 1. lia.
  - rewrite Nnat.Nat2N.inj_succ, N.pow_succ_r'. unfold is_byte in Hx. lia.
Qed.

Lemma be_val_bound b : wf_bytes b -> be_val b < 256 ^ N.of_nat (length b).
Proof.
  intros. unfold be_val. rewrite <- (rev_length b). apply le_val_bound.
  now apply wf_bytes_rev.
Qed.

Lemma le_fixed_val b : wf_bytes b -> le_fixed (length b) (le_val b) = b.
Proof.
  induction 1 as [|x r Hx Hr IH]; cbn [le_val length le_fixed]; auto.
  unfold is_byte in Hx.
  assert ((x + 256 * le_val r) mod 256 = x) as ->.
  { rewrite N.mul_comm, N.mod_add by lia. apply N.mod_small; lia. }
  assert ((x + 256 * le_val r) / 256 = le_val r) as ->.
  { rewrite N.mul_comm, N.div_add by lia. rewrite N.div_small by lia. lia. }
  now rewrite IH.
Qed.

Lemma be_fixed_val b : wf_bytes b -> be_fixed (length b) (be_val b) = b.
Proof.
  intros. unfold be_fixed, be_val.
  rewrite <- (rev_length b), le_fixed_val by now apply wf_bytes_rev.
  apply rev_involutive.
Qed.

Lemma pow256 k : 256 ^ k = 2 ^ (8 * k).
Proof. rewrite N.pow_mul_r. reflexivity. Qed.

Lemma nbytes_upper n : n < 256 ^ N.of_nat (nbytes n).
Proof.
  unfold nbytes. rewrite N2Nat.id, pow256.
  apply N.lt_le_trans with (2 ^ N.size n).
  - apply N.size_gt.
  - apply N.pow_le_mono_r; lia.
Qed.

Lemma nbytes_0 : nbytes 0 = 0%nat.
Proof. reflexivity. Qed.

Lemma nbytes_lower n : n <> 0 -> 256 ^ (N.of_nat (nbytes n) - 1) <= n.
Proof.
  intros Hn. unfold nbytes. rewrite N2Nat.id, pow256.
  assert (2 ^ (N.size n - 1) <= n) as H.
  { rewrite N.size_log2 by lia.
    replace (N.succ (N.log2 n) - 1) with (N.log2 n) by lia.
    apply N.log2_spec; lia. }
  eapply N.le_trans; [|exact H]. apply N.pow_le_mono_r; [lia|].
  assert (0 < N.size n) by (rewrite N.size_log2; lia). lia.
Qed.

Lemma nbytes_pos n : n <> 0 -> (0 < nbytes n)%nat.
Proof.
  intros. unfold nbytes. assert (0 < N.size n) by (rewrite N.size_log2; lia). lia.
Qed.

Lemma nbytes_le n k : n < 256 ^ N.of_nat k -> (nbytes n <= k)%nat.
Proof.
  intros H. destruct (N.eq_dec n 0) as [->|Hn]; [rewrite nbytes_0; lia|].
  pose proof (nbytes_lower n Hn) as L. pose proof (nbytes_pos n Hn).
  destruct (le_lt_dec (nbytes n) k) as [|G]; auto. exfalso.
  assert (256 ^ N.of_nat k <= 256 ^ (N.of_nat (nbytes n) - 1)) by (apply N.pow_le_mono_r; lia).
  lia.
Qed.

Lemma be_min_length n : length (be_min n) = nbytes n.
Proof. apply be_fixed_length. Qed.

Lemma be_min_wf n : wf_bytes (be_min n).
Proof. apply be_fixed_wf. Qed.

Lemma be_val_min n : be_val (be_min n) = n.
Proof. apply be_val_fixed, nbytes_upper. Qed.

Lemma be_min_0 : be_min 0 = [].
Proof. reflexivity. Qed.

Lemma be_min_nil n : be_min n = [] -> n = 0.
Proof. intros H. rewrite <- (be_val_min n), H. reflexivity. Qed.

Lemma le_val_app a b : le_val (a ++ b) = le_val a + 256 ^ N.of_nat (length a) * le_val b.
Proof.
  induction a as [|x a IH]; cbn [app le_val length].
  - change (256 ^ N.of_nat 0) with 1. lia.
  - rewrite IH, Nnat.Nat2N.inj_succ, N.pow_succ_r'. lia.
Qed.

Lemma be_val_cons x b : be_val (x :: b) = x * 256 ^ N.of_nat (length b) + be_val b.
Proof.
  unfold be_val. cbn [rev]. rewrite le_val_app, rev_length. cbn [le_val]. lia.
Qed.

Lemma be_val_nil : be_val [] = 0.
Proof. reflexivity. Qed.

Lemma be_val_app a b : be_val (a ++ b) = be_val a * 256 ^ N.of_nat (length b) + be_val b.
Proof.
  unfold be_val. rewrite rev_app_distr, le_val_app, rev_length. lia.
Qed.

(** The first digit of the minimal form is not zero. *)
Lemma be_min_hd n x r : be_min n = x :: r -> x <> 0.
Proof.
  intros H Hx. subst x.
  assert (n <> 0) as Hn by (intros ->; discriminate).
  pose proof (nbytes_lower n Hn) as L.
  pose proof (be_min_length n) as Len. rewrite H in Len. cbn in Len.
  pose proof (be_val_min n) as V. rewrite H, be_val_cons in V.
  pose proof (be_min_wf n) as W. rewrite H in W. inversion W; subst.
  pose proof (be_val_bound r ltac:(assumption)) as B.
  rewrite <- Len in L. replace (N.of_nat (S (length r)) - 1) with (N.of_nat (length r)) in L by lia.
  lia.
Qed.

(** A digit string without leading zero is the minimal form of its value. *)
Lemma be_min_of_val b :
  wf_bytes b -> (match b with 0 :: _ => False | _ => True end) -> be_min (be_val b) = b.
Proof.
  intros W H. unfold be_min.
  assert (nbytes (be_val b) = length b) as ->; [|now apply be_fixed_val].
  apply Nat.le_antisymm.
  - apply nbytes_le. now apply be_val_bound.
  - destruct b as [|x r]; [cbn; lia|].
    assert (x <> 0) as Hx by (intros ->; exact H).
    rewrite be_val_cons.
    destruct (le_lt_dec (length (x :: r)) (nbytes (x * 256 ^ N.of_nat (length r) + be_val r))) as [|G]; auto.
    exfalso. cbn [length] in G.
    pose proof (nbytes_upper (x * 256 ^ N.of_nat (length r) + be_val r)) as U.
    assert (256 ^ N.of_nat (nbytes (x * 256 ^ N.of_nat (length r) + be_val r)) <= 256 ^ N.of_nat (length r))
      by (apply N.pow_le_mono_r; lia).
    nia.
Qed.

Lemma be_min_inj a b : be_min a = be_min b -> a = b.
Proof. intros H. now rewrite <- (be_val_min a), <- (be_val_min b), H. Qed.

Lemma be_fixed_inj k a b :
  a < 256 ^ N.of_nat k -> b < 256 ^ N.of_nat k -> be_fixed k a = be_fixed k b -> a = b.
Proof. intros Ha Hb H. rewrite <- (be_val_fixed k a), <- (be_val_fixed k b), H; auto. Qed.

Lemma le_fixed_inj k a b :
  a < 256 ^ N.of_nat k -> b < 256 ^ N.of_nat k -> le_fixed k a = le_fixed k b -> a = b.
Proof. intros Ha Hb H. rewrite <- (le_val_fixed k a), <- (le_val_fixed k b), H; auto. Qed.

(** Stripping leading zeros: padding on the left does not change the value. *)
Lemma be_val_repeat0 k b : be_val (repeat 0 k ++ b) = be_val b.
Proof.
  rewrite be_val_app. induction k; cbn [repeat].
  - rewrite be_val_nil. lia.
  - rewrite be_val_cons. lia.
Qed.

Lemma len_app a b : len (a ++ b) = len a + len b.
Proof. unfold len. rewrite app_length. lia. Qed.

Lemma len_cons a b : len (a :: b) = 1 + len b.
Proof. unfold len. cbn [length]. lia. Qed.

Lemma len_nil : len [] = 0.
Proof. reflexivity. Qed.
