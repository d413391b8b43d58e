(** C65: the big-integer exponentiation precompile (address 5). *)
From Coq Require Import Lia.
From Verif Require Import Bytes BytesProofs Rlp TxModel PrecompModel.

(* ---------------------------------------------------------------------- *)
(** * What EIP-198 and EIP-2565 say *)

(** the [size] bytes of the input at [off] as a number, the input being followed by endless zeros *)
Definition znum (b : bytes) (off size : N) : N :=
  be_val (map (fun i => nth (N.to_nat off + i) b 0) (seq 0 (N.to_nat size))).

Definition Bsize (i : bytes) : N := znum i 0 32.
Definition Esize (i : bytes) : N := znum i 32 32.
Definition Msize (i : bytes) : N := znum i 64 32.
Definition Base (i : bytes) : N := znum i 96 (Bsize i).
Definition Expo (i : bytes) : N := znum i (96 + Bsize i) (Esize i).
Definition Modu (i : bytes) : N := znum i (96 + Bsize i + Esize i) (Msize i).
(** its first 32 bytes at most *)
Definition Head (i : bytes) : N := znum i (96 + Bsize i) (N.min 32 (Esize i)).

(** EIP-2565; [N.log2] of zero is zero *)
Definition eip_iterations (i : bytes) : N := N.max 1 (8 * (Esize i - 32) + N.log2 (Head i)).
Definition eip_words (i : bytes) : N := (N.max (Bsize i) (Msize i) + 7) / 8.
Definition eip_gas (i : bytes) : N := N.max 200 (eip_words i * eip_words i * eip_iterations i / 3).

(* ---------------------------------------------------------------------- *)
(** * Reading *)

Lemma window {A} (d : A) (b : list A) s z :
  map (fun i => nth (s + i) b d) (seq 0 z) = firstn z (skipn s b) ++ repeat d (z - (length b - s)).
Proof.
  apply (nth_ext _ _ d d).
  - rewrite map_length, seq_length, app_length, firstn_length, skipn_length, repeat_length. lia.
  - intros n H. rewrite map_length, seq_length in H.
    rewrite (nth_indep _ d (nth (s + 0) b d)) by (rewrite map_length, seq_length; lia).
    rewrite (map_nth (fun i => nth (s + i) b d)), seq_nth by lia. cbn [Nat.add].
    destruct (Nat.lt_ge_cases n (length (firstn z (skipn s b)))) as [L|L].
    + rewrite app_nth1 by lia. rewrite firstn_length, skipn_length in L.
      rewrite <- (firstn_skipn s b) at 1.
      rewrite app_nth2; rewrite firstn_length; [|lia].
      replace (s + n - Nat.min s (length b))%nat with n by lia.
      rewrite <- (firstn_skipn z (skipn s b)) at 1. rewrite app_nth1; [easy|rewrite firstn_length, skipn_length; lia].
    + rewrite app_nth2 by lia. rewrite firstn_length, skipn_length in *.
      rewrite nth_repeat, nth_overflow; [easy|lia].
Qed.

Lemma be_val_shift a k : be_val (a ++ repeat 0 k) = N.shiftl (be_val a) (8 * N.of_nat k).
Proof.
  rewrite be_val_app, repeat_length, N.shiftl_mul_pow2, <- pow256.
  replace (be_val (repeat 0 k)) with 0; [lia|].
  pose proof (be_val_repeat0 k []) as H. rewrite app_nil_r in H. now rewrite H.
Qed.

Lemma get_data_val data s z v :
  len data < 2 ^ 63 -> get_data data s z = Ok v -> z <= ISIZE_MAX /\ v = znum data s z.
Proof.
  unfold get_data. intros HL.
  set (s' := N.min s (len data)).
  destruct (N.leb_spec z ISIZE_MAX) as [Hz|Hz].
  2:{ replace (ISIZE_MAX <? _) with true; [easy|]. symmetry. apply N.ltb_lt. lia. }
  assert (Hs : (s' + z) mod 2 ^ 64 = s' + z).
  { apply N.mod_small. unfold s', ISIZE_MAX in *. change (2 ^ 64) with (2 ^ 63 + 2 ^ 63). lia. }
  rewrite Hs. clear Hs. set (e := N.min (s' + z) (len data)).
  destruct (ISIZE_MAX <? _); [easy|]. intros [= <-]. split; [easy|].
  unfold znum. rewrite window, be_val_shift.
  f_equal.
  - f_equal. destruct (N.ltb_spec s' e) as [L|L].
    + unfold s', e, len in *.
      replace (N.to_nat (N.min s (N.of_nat (length data)))) with (N.to_nat s) by lia.
      destruct (N.leb_spec (s + z) (N.of_nat (length data))).
      * f_equal. lia.
      * rewrite !firstn_all2; try (rewrite skipn_length; lia). easy.
    + symmetry. unfold s', e, len in *.
      destruct (N.eq_dec z 0) as [->|]; [easy|].
      rewrite skipn_all2 by lia. apply firstn_nil.
  - unfold e, s', len. lia.
Qed.

Lemma get_data_ok data s z :
  len data < 2 ^ 62 -> z <= 2 ^ 62 -> get_data data s z = Ok (znum data s z).
Proof.
  intros HL Hz.
  assert (HL' : len data < 2 ^ 63) by (eapply N.lt_trans; [apply HL|easy]).
  pose proof (get_data_val data s z) as HV.
  destruct (get_data data s z) as [v| |] eqn:E.
  - now rewrite (proj2 (HV v HL' eq_refl)).
  - unfold get_data in E. destruct (ISIZE_MAX <? _); easy.
  - exfalso. clear HV. unfold get_data in E.
    match type of E with context [len ?x + z] => set (sl := x) in E end.
    replace (ISIZE_MAX <? len sl + z) with false in E; [easy|].
    symmetry. apply N.ltb_ge.
    assert (len sl <= len data).
    { unfold sl. destruct (_ <? _); [|unfold len; cbn; lia].
      unfold len. rewrite firstn_length, skipn_length. lia. }
    unfold ISIZE_MAX. change (2 ^ 63) with (2 ^ 62 + 2 ^ 62). lia.
Qed.

Lemma word_znum i o : len i < 2 ^ 62 -> word i o = znum i o 32.
Proof. intros H. unfold word. rewrite get_data_ok by (assumption || easy). easy. Qed.

Lemma body_nth i k : nth k (body i) 0 = nth (96 + k) i 0.
Proof.
  unfold body. destruct (N.ltb_spec 96 (len i)) as [H|H].
  - rewrite <- (firstn_skipn 96 i) at 2. unfold len in H.
    rewrite app_nth2; rewrite firstn_length; [|lia].
    f_equal. lia.
  - unfold len in H. rewrite !nth_overflow; [easy|lia|cbn; lia].
Qed.

Lemma body_znum i o z : znum (body i) o z = znum i (96 + o) z.
Proof.
  unfold znum. f_equal. apply map_ext. intros k. rewrite body_nth. f_equal. lia.
Qed.

Lemma body_len i : len (body i) <= len i.
Proof. unfold body. destruct (_ <? _); unfold len; [rewrite skipn_length|cbn]; lia. Qed.

Lemma wf_window b s z : wf_bytes b -> wf_bytes (map (fun i => nth (s + i) b 0) (seq 0 z)).
Proof.
  intros H. rewrite window. apply wf_bytes_app. split.
  - now apply wf_bytes_firstn, wf_bytes_skipn.
  - apply Forall_forall. intros x Hx. apply repeat_spec in Hx. subst. now compute.
Qed.

Lemma znum_bound b s z : wf_bytes b -> znum b s z < 256 ^ z.
Proof.
  intros H. unfold znum.
  pose proof (be_val_bound _ (wf_window b (N.to_nat s) (N.to_nat z) H)) as L.
  now rewrite map_length, seq_length, N2Nat.id in L.
Qed.

(* ---------------------------------------------------------------------- *)
(** * Gas *)

Lemma size_log n : N.size n - 1 = N.log2 n.
Proof. destruct n as [|p]; [easy|]. rewrite N.size_log2 by easy. lia. Qed.

(** When the count of iterations leaves 64 bits; the only panic of the gas computation *)
Definition overflows (i : bytes) : Prop :=
  (Bsize i <> 0 \/ Msize i <> 0) /\ 32 < Esize i /\ 2 ^ 64 <= N.min (8 * (Esize i - 32)) (2 ^ 64 - 1) + N.log2 (Head i).

Lemma iterations_spec i :
  wf_bytes i ->
  iterations (Esize i) (Head i) =
    if (32 <? Esize i) && (2 ^ 64 <=? N.min (8 * (Esize i - 32)) (2 ^ 64 - 1) + N.log2 (Head i)) then Panic
    else Ok (N.max 1 (N.min (8 * (Esize i - 32)) (2 ^ 64 - 1) + N.log2 (Head i))).
Proof.
  intros W. unfold iterations, sat64, USIZE_MAX.
  destruct (N.ltb_spec 32 (Esize i)) as [H|H]; cbn [andb].
  - replace (Esize i <=? 32) with false by (symmetry; apply N.leb_gt; lia). cbn [andb].
    rewrite N.land_ones, N.mod_small.
    2:{ eapply N.lt_le_trans; [apply znum_bound, W|].
        change 256 with (2 ^ 8) at 1. rewrite <- N.pow_mul_r. apply N.pow_le_mono_r; lia. }
    rewrite size_log.
    set (x := N.min _ _ + _).
    destruct (N.ltb_spec (2 ^ 64 - 1) x); destruct (N.leb_spec (2 ^ 64) x); try (exfalso; lia).
    + easy.
    + f_equal. lia.
  - replace (Esize i <=? 32) with true by (symmetry; apply N.leb_le; lia). cbn [andb].
    replace (8 * (Esize i - 32)) with 0 by lia.
    rewrite N.min_l, N.add_0_l by easy.
    destruct (N.eqb_spec (Head i) 0) as [E|E]; [now rewrite E|].
    rewrite size_log. f_equal. lia.
Qed.

Lemma modexp_gas_spec i :
  wf_bytes i -> len i < 2 ^ 62 ->
  (overflows i /\ modexp_gas i = Panic) \/
  (~ overflows i /\ modexp_gas i = Ok (N.min (2 ^ 64 - 1)
     (N.max 200 (eip_words i * eip_words i * N.max 1 (N.min (8 * (Esize i - 32)) (2 ^ 64 - 1) + N.log2 (Head i)) / 3)))).
Proof.
  intros W L. unfold modexp_gas. rewrite !word_znum by easy.
  fold (Bsize i) (Msize i) (Esize i).
  destruct ((Bsize i =? 0) && (Msize i =? 0)) eqn:Z.
  - right. apply andb_true_iff in Z as [Zb Zm]. apply N.eqb_eq in Zb, Zm.
    split; [unfold overflows; lia|].
    unfold eip_words. rewrite Zb, Zm. cbn [N.max N.compare]. change ((0 + 7) / 8) with 0.
    rewrite !N.mul_0_l. easy.
  - assert (NZ : Bsize i <> 0 \/ Msize i <> 0).
    { apply andb_false_iff in Z as [Z|Z]; apply N.eqb_neq in Z; auto. }
    assert (GD : get_data (body i) (sat64 (Bsize i)) (if 32 <? Esize i then 32 else sat64 (Esize i)) = Ok (Head i)).
    { pose proof (body_len i).
      assert (E : (if 32 <? Esize i then 32 else sat64 (Esize i)) = N.min 32 (Esize i)).
      { unfold sat64, USIZE_MAX. destruct (N.ltb_spec 32 (Esize i)); lia. }
      rewrite E, get_data_ok; [|lia|change (2 ^ 62) with (32 + (2 ^ 62 - 32)); lia].
      f_equal. unfold Head. rewrite <- body_znum.
      unfold sat64, USIZE_MAX. destruct (N.leb_spec (Bsize i) (2 ^ 64 - 1)) as [HB|HB]; [now rewrite N.min_l|].
      rewrite N.min_r by lia.
      unfold znum. f_equal. rewrite !window, !skipn_all2; [|..].
      - rewrite !firstn_nil. f_equal. f_equal. unfold len in *.
        assert (2 ^ 62 < 2 ^ 64 - 1) by easy. lia.
      - unfold len in *. assert (2 ^ 62 < 2 ^ 64 - 1) by easy. lia.
      - unfold len in *. assert (2 ^ 62 < 2 ^ 64 - 1) by easy. lia. }
    rewrite GD, iterations_spec by easy.
    destruct (N.ltb_spec 32 (Esize i)) as [H|H]; cbn [andb].
    + destruct (N.leb_spec (2 ^ 64) (N.min (8 * (Esize i - 32)) (2 ^ 64 - 1) + N.log2 (Head i))) as [O|O].
      * left. unfold overflows. auto.
      * right. split; [unfold overflows; lia|].
        f_equal. unfold sat64, USIZE_MAX, complexity, eip_words, MODEXP_MIN. rewrite N.pow_2_r. lia.
    + right. split; [unfold overflows; lia|].
      f_equal. unfold sat64, USIZE_MAX, complexity, eip_words, MODEXP_MIN. rewrite N.pow_2_r. lia.
Qed.

(* ---------------------------------------------------------------------- *)
(** * The result *)

Lemma modexp_calc_spec b e m : modexp_calc b e m = if m =? 0 then 0 else b ^ e mod m.
Proof.
  unfold modexp_calc. destruct (m =? 0) eqn:E; [easy|].
  destruct (N.eqb_spec b 1) as [->|]; [now rewrite N.pow_1_l|easy].
Qed.

(** A call with a gas limit below 2^62 on fewer than 2^62 bytes either runs out of gas, exactly when the limit is below the price of
    EIP-2565, or succeeds at that price with the value of EIP-198, or panics, exactly when the count of iterations overflows. *)
Theorem C65_modexp_partial i l :
  wf_bytes i -> len i < 2 ^ 62 -> l < 2 ^ 62 -> ~ overflows i ->
  (l < eip_gas i /\ modexp_exec i (Some l) = POutOfGas) \/
  (eip_gas i <= l /\
   exists out, modexp_exec i (Some l) = POk out (eip_gas i) /\
     wf_bytes out /\ len out = Msize i /\
     be_val out = if Modu i =? 0 then 0 else Base i ^ Expo i mod Modu i).
Proof.
  intros W L Hl NO. unfold modexp_exec.
  destruct (modexp_gas_spec i W L) as [[O _]|[_ G]]; [easy|]. rewrite G. clear G.
  set (it := N.min (8 * (Esize i - 32)) (2 ^ 64 - 1) + N.log2 (Head i)).
  set (g := N.max 200 (eip_words i * eip_words i * N.max 1 it / 3)).
  assert (P62 : 2 ^ 62 < 2 ^ 64 - 1) by easy.
  assert (P62' : 2 ^ 62 < 2 ^ 63 - 1) by easy.
  destruct ((Bsize i =? 0) && (Msize i =? 0)) eqn:Z.
  { apply andb_true_iff in Z as [Zb Zm]. apply N.eqb_eq in Zb, Zm.
    assert (Ew : eip_words i = 0) by (unfold eip_words; now rewrite Zb, Zm).
    assert (Eg : g = 200) by (unfold g; now rewrite Ew).
    assert (Eg' : eip_gas i = 200) by (unfold eip_gas; now rewrite Ew).
    rewrite Eg, Eg'. change (N.min (2 ^ 64 - 1) 200) with 200. cbn [over].
    destruct (N.ltb_spec l 200) as [H|H]; [left; easy|right].
    split; [easy|]. rewrite !word_znum by easy. fold (Bsize i) (Msize i). rewrite Zb, Zm. cbn.
    exists []. split; [easy|]. split; [constructor|]. split; [easy|].
    unfold Modu. rewrite Zm. easy. }
  assert (NZ : Bsize i <> 0 \/ Msize i <> 0).
  { apply andb_false_iff in Z as [Z|Z]; apply N.eqb_neq in Z; auto. }
  assert (W1 : 1 <= eip_words i).
  { unfold eip_words. transitivity (8 / 8); [easy|]. apply N.div_le_mono; lia. }
  (* the price is exact or beyond the limit *)
  assert (EXACT : l < N.min (2 ^ 64 - 1) g /\ l < eip_gas i \/
                  N.min (2 ^ 64 - 1) g = eip_gas i /\ (eip_gas i <= l -> Esize i <= 2 ^ 62 /\ N.max (Bsize i) (Msize i) <= 2 ^ 40)).
  { assert (W2 : 1 <= eip_words i * eip_words i) by nia.
    assert (D : forall a b, b <= a -> eip_words i * eip_words i * a / 3 < 2 ^ 62 -> b < 2 ^ 64 - 1).
    { intros a b Hab Hd. apply N.lt_nge. intros Hc.
      assert (b / 3 <= eip_words i * eip_words i * a / 3).
      { apply N.div_le_mono; [easy|]. nia. }
      assert ((2 ^ 64 - 1) / 3 <= b / 3) by (apply N.div_le_mono; [easy|lia]).
      assert (2 ^ 62 <= (2 ^ 64 - 1) / 3) by easy. lia. }
    destruct (N.leb_spec (eip_gas i) l) as [H|H].
    - right.
      assert (HE : eip_words i * eip_words i * eip_iterations i / 3 < 2 ^ 62) by (unfold eip_gas in H; lia).
      assert (HI : 8 * (Esize i - 32) < 2 ^ 64 - 1).
      { apply (D (eip_iterations i)); [|easy]. unfold eip_iterations. lia. }
      assert (g = eip_gas i) as ->.
      { unfold g, it, eip_gas, eip_iterations. rewrite (N.min_l (8 * _)) by lia. easy. }
      split; [lia|]. intros _. split.
      + change (2 ^ 62) with (2 ^ 62 - 32 + 32). assert (2 ^ 64 - 1 < 8 * (2 ^ 62 - 32)) by easy. lia.
      + assert (eip_words i * eip_words i * 1 / 3 < 2 ^ 62).
        { eapply N.le_lt_trans; [|apply HE]. apply N.div_le_mono; [easy|].
          unfold eip_iterations. nia. }
        assert (eip_words i < 2 ^ 33).
        { apply N.lt_nge. intros Hc.
          assert (2 ^ 33 * 2 ^ 33 / 3 <= eip_words i * eip_words i * 1 / 3).
          { apply N.div_le_mono; [easy|]. nia. }
          assert (2 ^ 62 <= 2 ^ 33 * 2 ^ 33 / 3) by easy. lia. }
        unfold eip_words in *. pose proof (N.div_mod (N.max (Bsize i) (Msize i) + 7) 8).
        pose proof (N.mod_lt (N.max (Bsize i) (Msize i) + 7) 8).
        change (2 ^ 40) with (8 * 2 ^ 33 + (2 ^ 40 - 8 * 2 ^ 33)).
        assert (0 < 2 ^ 40 - 8 * 2 ^ 33) by easy. lia.
    - destruct (N.leb_spec (8 * (Esize i - 32)) (2 ^ 64 - 1)) as [HI|HI].
      + assert (g = eip_gas i) as ->.
        { unfold g, it, eip_gas, eip_iterations. rewrite (N.min_l (8 * _)) by lia. easy. }
        left. lia.
      + left. split; [|easy]. apply N.min_glb_lt; [lia|].
        eapply N.lt_le_trans; [apply Hl|]. unfold g.
        etransitivity; [|apply N.le_max_r].
        assert ((2 ^ 64 - 1) / 3 <= eip_words i * eip_words i * N.max 1 it / 3).
        { apply N.div_le_mono; [easy|]. unfold it. rewrite N.min_r by lia. nia. }
        assert (2 ^ 62 <= (2 ^ 64 - 1) / 3) by easy. lia. }
  destruct EXACT as [[X1 X2]|[-> Hsz]].
  { left. split; [easy|]. cbn [over]. now rewrite (proj2 (N.ltb_lt _ _) X1). }
  cbn [over]. destruct (N.ltb_spec l (eip_gas i)) as [H|H]; [left; easy|right].
  split; [easy|]. destruct (Hsz H) as [HE HBM]. clear Hsz.
  assert (P40 : 2 ^ 40 < 2 ^ 62) by easy.
  rewrite !word_znum by easy. fold (Bsize i) (Msize i) (Esize i).
  assert (S : forall n, n <= 2 ^ 62 -> sat64 n = n) by (intros; unfold sat64, USIZE_MAX; lia).
  rewrite !S by lia. rewrite Z.
  pose proof (body_len i).
  rewrite (N.mod_small (Bsize i + Esize i)).
  2:{ assert (2 ^ 40 + 2 ^ 62 < 2 ^ 64) by easy. lia. }
  rewrite !get_data_ok by lia. rewrite !body_znum, N.add_0_r, N.add_assoc.
  fold (Base i). fold (Expo i). fold (Modu i).
  set (r := modexp_calc _ _ _).
  assert (RV : r = if Modu i =? 0 then 0 else Base i ^ Expo i mod Modu i) by apply modexp_calc_spec.
  assert (RB : r < 256 ^ Msize i).
  { rewrite RV. destruct (N.eqb_spec (Modu i) 0) as [E|E].
    - assert (256 ^ Msize i <> 0) by (apply N.pow_nonzero; lia). lia.
    - eapply N.lt_trans; [apply N.mod_lt, E|]. now apply znum_bound. }
  assert (RL : len (be_min r) <= Msize i).
  { unfold len. rewrite be_min_length.
    assert (nbytes r <= N.to_nat (Msize i))%nat by (apply nbytes_le; now rewrite N2Nat.id). lia. }
  replace (Msize i <? len (be_min r)) with false by (symmetry; apply N.ltb_ge; lia).
  eexists. split; [reflexivity|]. split; [|split].
  - apply wf_bytes_app. split; [|apply be_min_wf].
    apply Forall_forall. intros x Hx. apply repeat_spec in Hx. subst. now compute.
  - rewrite len_app. unfold len at 1. rewrite repeat_length. lia.
  - rewrite be_val_repeat0, be_val_min. exact RV.
Qed.
Print Assumptions C65_modexp_partial.

(** the condition is exact: inside it, every call panics, whatever the gas limit *)
Theorem C65_modexp_panics i limit : wf_bytes i -> len i < 2 ^ 62 -> overflows i -> modexp_exec i limit = PPanic.
Proof.
  intros W L O. unfold modexp_exec. destruct (modexp_gas_spec i W L) as [[_ ->]|[NO _]]; [easy|]. easy.
Qed.
Print Assumptions C65_modexp_panics.

(** and cannot be met with exponents shorter than 2^61 - 32 bytes *)
Theorem C65_no_panic i l :
  wf_bytes i -> len i < 2 ^ 62 -> l < 2 ^ 62 -> Esize i < 2 ^ 61 - 32 -> modexp_exec i (Some l) <> PPanic.
Proof.
  intros W L Hl HE.
  assert (NO : ~ overflows i).
  { intros (_ & H & O).
    assert (Head i < 2 ^ 256).
    { eapply N.lt_le_trans; [apply znum_bound, W|].
      change 256 with (2 ^ 8) at 1. rewrite <- N.pow_mul_r. apply N.pow_le_mono_r; lia. }
    assert (N.log2 (Head i) < 256).
    { destruct (N.eq_dec (Head i) 0) as [->|]; [easy|]. apply N.log2_lt_pow2; lia. }
    change (2 ^ 64) with (8 * (2 ^ 61)) in O. lia. }
  destruct (C65_modexp_partial i l W L Hl NO) as [[_ ->]|(_ & out & -> & _)]; easy.
Qed.
Print Assumptions C65_no_panic.

(** The work a call can cause is bounded by the gas paid: numbers that are read have at most about 14 sqrt(gas) bytes, an exponent at most
    3/8 gas bytes. *)
Theorem C65_work i l out g :
  wf_bytes i -> len i < 2 ^ 62 -> l < 2 ^ 62 -> modexp_exec i (Some l) = POk out g -> (Bsize i <> 0 \/ Msize i <> 0) ->
  g <= l /\ Bsize i * Bsize i <= 64 * (3 * g + 2) /\ Msize i * Msize i <= 64 * (3 * g + 2) /\ 8 * (Esize i - 32) <= 3 * g + 2.
Proof.
  intros W L Hl E NZ.
  assert (NO : ~ overflows i).
  { intros O. rewrite C65_modexp_panics in E; easy. }
  destruct (C65_modexp_partial i l W L Hl NO) as [[_ E']|(G & out' & E' & _)]; rewrite E' in E; [easy|].
  injection E as <- <-. split; [easy|].
  assert (W1 : 1 <= eip_words i).
  { unfold eip_words. transitivity (8 / 8); [easy|]. apply N.div_le_mono; lia. }
  assert (X : eip_words i * eip_words i * eip_iterations i <= 3 * eip_gas i + 2).
  { pose proof (N.div_mod (eip_words i * eip_words i * eip_iterations i) 3).
    pose proof (N.mod_lt (eip_words i * eip_words i * eip_iterations i) 3).
    unfold eip_gas. lia. }
  assert (I1 : 1 <= eip_iterations i) by (unfold eip_iterations; lia).
  assert (I2 : 8 * (Esize i - 32) <= eip_iterations i) by (unfold eip_iterations; lia).
  assert (M : N.max (Bsize i) (Msize i) <= 8 * eip_words i).
  { unfold eip_words. pose proof (N.div_mod (N.max (Bsize i) (Msize i) + 7) 8).
    pose proof (N.mod_lt (N.max (Bsize i) (Msize i) + 7) 8). lia. }
  assert (eip_words i * eip_words i <= 3 * eip_gas i + 2) by nia.
  assert (forall n, n <= 8 * eip_words i -> n * n <= 64 * (3 * eip_gas i + 2)).
  { intros n Hn. assert (n * n <= 8 * eip_words i * (8 * eip_words i)) by nia. lia. }
  repeat apply conj; [apply H0; lia|apply H0; lia|]. nia.
Qed.
Print Assumptions C65_work.

(* ---------------------------------------------------------------------- *)
(** * Examples and the finding *)

(** the first test vector of EIP-198: 3 ^ (2^256 - 2^32 - 978) mod (2^256 - 2^32 - 977) *)
Definition ex_fermat : bytes :=
  be_fixed 32 1 ++ be_fixed 32 32 ++ be_fixed 32 32 ++ [3] ++ be_fixed 32 (2 ^ 256 - 2 ^ 32 - 978) ++ be_fixed 32 (2 ^ 256 - 2 ^ 32 - 977).
Example C65_ex_hyp : wf_bytesb ex_fermat = true /\ len ex_fermat < 2 ^ 62 /\ Esize ex_fermat = 32 /\ Msize ex_fermat = 32 /\
  Base ex_fermat = 3 /\ Modu ex_fermat = 2 ^ 256 - 2 ^ 32 - 977 /\ eip_gas ex_fermat = 1360.
Proof. now vm_compute. Qed.
(** 2 ^ 10 mod 1000 in two bytes *)
Definition ex_small : bytes := be_fixed 32 1 ++ be_fixed 32 1 ++ be_fixed 32 2 ++ [2; 10; 3; 232].
Example C65_ex_run : modexp_exec ex_small (Some 1000) = POk [0; 24] 200 /\ modexp_exec ex_small (Some 199) = POutOfGas.
Proof. now vm_compute. Qed.

(** A 98-byte input that stops the node, whatever gas is offered *)
Definition ex_bomb : bytes := be_fixed 32 1 ++ be_fixed 32 (2 ^ 64) ++ be_fixed 32 0 ++ [0; 3].
Theorem C65_panic_refuted : exists i, length i = 98%nat /\ forall limit, modexp_exec i limit = PPanic.
Proof. exists ex_bomb. split; [easy|]. intros limit. now vm_compute. Qed.
Print Assumptions C65_panic_refuted.
