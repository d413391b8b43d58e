(** C85: bytes, numbers, block identifiers and addresses in text form. *)
From Verif Require Import Bytes BytesProofs TxModel NetModel Web3Model Keccak HexModel.
From Coq Require Import NArith List Lia Bool.
Import ListNotations.
Local Open Scope N_scope.

(* ------------------------------------------------------------------ *)
(** * Specification *)

(** The digits, lower and upper case. *)
Definition LOW : text := [48; 49; 50; 51; 52; 53; 54; 55; 56; 57; 97; 98; 99; 100; 101; 102].
Definition UP : text := [48; 49; 50; 51; 52; 53; 54; 55; 56; 57; 65; 66; 67; 68; 69; 70].
Definition stands_for (c d : N) : Prop := nth_error LOW (N.to_nat d) = Some c \/ nth_error UP (N.to_nat d) = Some c.
(** A string of digits denotes a number; the last digit is the lowest. *)
Inductive denotes : text -> N -> Prop :=
| den_nil : denotes [] 0
| den_snoc t n c d : denotes t n -> stands_for c d -> denotes (t ++ [c]) (16 * n + d).
(** A string of digits spells a byte string: two digits per byte. *)
Inductive spells : text -> bytes -> Prop :=
| sp_nil : spells [] []
| sp_cons h l a b t q : stands_for h a -> stands_for l b -> spells t q -> spells (h :: l :: t) (16 * a + b :: q).
(** Lower case only. *)
Definition low_case (t : text) : Prop := Forall (fun c => In c LOW) t.

(* ------------------------------------------------------------------ *)
(** * Digits *)

Lemma stands_lt c d : stands_for c d -> d < 16.
Proof.
  intros [H|H]; (assert (N.to_nat d < 16)%nat; [|lia]);
    [change 16%nat with (length LOW)|change 16%nat with (length UP)]; apply nth_error_Some; rewrite H; discriminate.
Qed.
Lemma below16 d (P : N -> Prop) : d < 16 ->
  P 0 -> P 1 -> P 2 -> P 3 -> P 4 -> P 5 -> P 6 -> P 7 -> P 8 -> P 9 -> P 10 -> P 11 -> P 12 -> P 13 -> P 14 -> P 15 -> P d.
Proof.
  intros H; intros.
  assert (C : d = 0 \/ d = 1 \/ d = 2 \/ d = 3 \/ d = 4 \/ d = 5 \/ d = 6 \/ d = 7 \/ d = 8 \/ d = 9 \/ d = 10 \/ d = 11 \/ d = 12 \/
    d = 13 \/ d = 14 \/ d = 15) by lia.
  repeat (destruct C as [->|C]; [assumption|]). subst d. assumption.
Qed.
Lemma digit_stands d : d < 16 -> stands_for (hex_digit d) d.
Proof. intros H. revert d H. intros d H. pattern d. apply below16; [exact H|..]; left; reflexivity. Qed.
Lemma digit_low d : d < 16 -> In (hex_digit d) LOW.
Proof. intros H. pattern d. apply below16; [exact H|..]; vm_compute; tauto. Qed.
Lemma digit_val_stands c d : digit_val 16 c = Some d <-> stands_for c d.
Proof.
  split.
  - unfold digit_val. intros H.
    destruct ((48 <=? c) && (c <=? 57)) eqn:E1.
    { apply andb_true_iff in E1 as [A B]. apply N.leb_le in A, B.
      destruct (c - 48 <? 16) eqn:E; [|discriminate]. injection H as <-.
      assert (C : c = 48 \/ c = 49 \/ c = 50 \/ c = 51 \/ c = 52 \/ c = 53 \/ c = 54 \/ c = 55 \/ c = 56 \/ c = 57) by lia.
      repeat (destruct C as [->|C]; [left; reflexivity|]). subst c. left; reflexivity. }
    destruct ((97 <=? c) && (c <=? 122)) eqn:E2.
    { apply andb_true_iff in E2 as [A B]. apply N.leb_le in A, B.
      destruct (c - 97 + 10 <? 16) eqn:E; [|discriminate]. injection H as <-. apply N.ltb_lt in E.
      assert (C : c = 97 \/ c = 98 \/ c = 99 \/ c = 100 \/ c = 101 \/ c = 102) by lia.
      repeat (destruct C as [->|C]; [left; reflexivity|]). subst c. left; reflexivity. }
    destruct ((65 <=? c) && (c <=? 90)) eqn:E3; [|discriminate].
    apply andb_true_iff in E3 as [A B]. apply N.leb_le in A, B.
    destruct (c - 65 + 10 <? 16) eqn:E; [|discriminate]. injection H as <-. apply N.ltb_lt in E.
    assert (C : c = 65 \/ c = 66 \/ c = 67 \/ c = 68 \/ c = 69 \/ c = 70) by lia.
    repeat (destruct C as [->|C]; [right; reflexivity|]). subst c. right; reflexivity.
  - intros H. pose proof (stands_lt _ _ H) as L. revert H. pattern d. apply below16; [exact L|..];
      (intros [H|H]; cbn in H; injection H as <-; reflexivity).
Qed.
Lemma digit_val_hex d : d < 16 -> digit_val 16 (hex_digit d) = Some d.
Proof. intros H. apply digit_val_stands, digit_stands, H. Qed.
Lemma digit_val_lt c d : digit_val 16 c = Some d -> d < 16.
Proof. intros H. apply digit_val_stands in H. eapply stands_lt, H. Qed.
Lemma stands_fun c d d' : stands_for c d -> stands_for c d' -> d = d'.
Proof. rewrite <- !digit_val_stands. congruence. Qed.

(* ------------------------------------------------------------------ *)
(** * Byte strings *)

Lemma hex_pairs_spells t b : hex_pairs t = Some b <-> spells t b.
Proof.
  split.
  - revert b. assert (G : forall n t b, (length t <= n)%nat -> hex_pairs t = Some b -> spells t b); [|eauto].
    induction n as [|n IH]; intros t' b L H.
    + destruct t'; [|cbn in L; lia]. injection H as <-. constructor.
    + destruct t' as [|h [|l r]]; [injection H as <-; constructor|discriminate|].
      cbn in H. destruct (digit_val 16 h) eqn:Eh; [|discriminate]. destruct (digit_val 16 l) eqn:El; [|discriminate].
      destruct (hex_pairs r) eqn:Er; [|discriminate]. injection H as <-.
      replace (n0 * 16 + n1) with (16 * n0 + n1) by lia.
      constructor; [apply digit_val_stands, Eh|apply digit_val_stands, El|]. apply IH; [cbn in L; lia|exact Er].
  - induction 1 as [|h l a b t q Ha Hb _ IH]; [reflexivity|].
    cbn. rewrite (proj2 (digit_val_stands h a) Ha), (proj2 (digit_val_stands l b) Hb), IH. do 2 f_equal. lia.
Qed.
Lemma encode_spells b : wf_bytes b -> spells (hex_encode b) b.
Proof.
  induction 1 as [|x r Hx _ IH]; [constructor|]. unfold is_byte in Hx.
  cbn [hex_encode flat_map app]. fold (hex_encode r).
  assert (E : 16 * (x / 16) + x mod 16 = x) by (symmetry; apply N.div_mod'). rewrite <- E at 3.
  assert (x / 16 < 16) by (apply N.div_lt_upper_bound; lia). assert (x mod 16 < 16) by (apply N.mod_lt; lia).
  constructor; [apply digit_stands; assumption|apply digit_stands; assumption|exact IH].
Qed.
Lemma encode_low b : wf_bytes b -> low_case (hex_encode b).
Proof.
  induction 1 as [|x r Hx _ IH]; [constructor|]. unfold is_byte in Hx.
  assert (x / 16 < 16) by (apply N.div_lt_upper_bound; lia). assert (x mod 16 < 16) by (apply N.mod_lt; lia).
  cbn [hex_encode flat_map app]. constructor; [apply digit_low; assumption|].
  constructor; [apply digit_low; assumption|exact IH].
Qed.
Lemma spells_wf t b : spells t b -> wf_bytes b.
Proof.
  induction 1 as [|h l a b t q Ha Hb _ IH]; constructor; [|exact IH].
  apply stands_lt in Ha, Hb. unfold is_byte. lia.
Qed.
Lemma spells_length t b : spells t b -> length t = (2 * length b)%nat.
Proof. induction 1; cbn; lia. Qed.
Lemma lower_stands c d : stands_for c d -> lower c = hex_digit d.
Proof.
  intros H. pose proof (stands_lt _ _ H) as L. revert H. pattern d. apply below16; [exact L|..];
    (intros [H|H]; cbn in H; injection H as <-; reflexivity).
Qed.
(** Apart from letter case there is one spelling. *)
Lemma spells_lower t b : spells t b -> map lower t = hex_encode b.
Proof.
  induction 1 as [|h l a b t q Ha Hb _ IH]; [reflexivity|].
  pose proof (stands_lt _ _ Ha). pose proof (stands_lt _ _ Hb).
  cbn [map hex_encode flat_map app]. fold (hex_encode q).
  replace ((16 * a + b) / 16) with a by (apply (N.div_unique _ 16 a b); lia).
  replace ((16 * a + b) mod 16) with b by (apply (N.mod_unique _ 16 a b); lia).
  rewrite (lower_stands _ _ Ha), (lower_stands _ _ Hb). cbn [app]. do 2 f_equal. exact IH.
Qed.

Lemma starts_spec p t : starts p t = true <-> exists r, t = p ++ r.
Proof.
  revert t. induction p as [|x p IH]; intros t; cbn.
  - split; [eauto|reflexivity].
  - destruct t as [|y t]; [split; [discriminate|intros [r E]; discriminate]|].
    rewrite andb_true_iff, N.eqb_eq, IH. split.
    + intros [-> [r ->]]. exists r. reflexivity.
    + intros [r E]. injection E as -> ->. eauto.
Qed.
Lemma starts_low t : low_case t -> starts P0x t = false.
Proof.
  intros H. destruct (starts P0x t) eqn:E; [|reflexivity]. apply starts_spec in E as [r ->].
  inversion H as [|? ? _ H1]; subst. inversion H1 as [|? ? H2 _]; subst. vm_compute in H2. intuition discriminate.
Qed.
Lemma spells_no_prefix t b : spells t b -> starts P0x t = false.
Proof.
  intros H. destruct (starts P0x t) eqn:E; [|reflexivity]. apply starts_spec in E as [r ->].
  inversion H as [|? ? ? ? ? ? _ Hl]; subst. apply digit_val_stands in Hl. discriminate.
Qed.

(** Bytes written as text are read back, and what is read is spelled by the text. *)
Theorem C85_bytes b : wf_bytes b -> hex_from_str (hex_text b) = Some b.
Proof.
  intros H. unfold hex_from_str, hex_text. cbn [P0x app starts skipn]. rewrite !N.eqb_refl. cbn [andb].
  unfold hex_decode. rewrite starts_low by apply encode_low, H. apply hex_pairs_spells, encode_spells, H.
Qed.
Theorem C85_bytes_only t b : hex_from_str t = Some b ->
  wf_bytes b /\ exists p ds, t = P0x ++ p ++ ds /\ (p = [] \/ p = P0x) /\ spells ds b /\ map lower ds = hex_encode b.
Proof.
  unfold hex_from_str. destruct (starts P0x t) eqn:E; [|discriminate]. apply starts_spec in E as [r ->].
  change (skipn 2 (P0x ++ r)) with r. unfold hex_decode. destruct (starts P0x r) eqn:E.
  - apply starts_spec in E as [q ->]. change (skipn 2 (P0x ++ q)) with q. intros H. apply hex_pairs_spells in H.
    split; [eapply spells_wf, H|]. exists P0x, q. split; [reflexivity|]. split; [auto|]. split; [exact H|apply spells_lower, H].
  - intros H. apply hex_pairs_spells in H.
    split; [eapply spells_wf, H|]. exists [], r. split; [reflexivity|]. split; [auto|]. split; [exact H|apply spells_lower, H].
Qed.
Theorem C85_bytes_accepts p ds b : p = [] \/ p = P0x -> spells ds b -> hex_from_str (P0x ++ p ++ ds) = Some b.
Proof.
  intros Hp H. unfold hex_from_str. change (starts P0x (P0x ++ p ++ ds)) with true.
  change (skipn 2 (P0x ++ p ++ ds)) with (p ++ ds). cbv iota. unfold hex_decode.
  destruct Hp as [->| ->].
  - change ([] ++ ds) with ds. rewrite (spells_no_prefix _ _ H). apply hex_pairs_spells, H.
  - change (starts P0x (P0x ++ ds)) with true. change (skipn 2 (P0x ++ ds)) with ds. apply hex_pairs_spells, H.
Qed.
Example C85_bytes_ex : hex_text [222; 173; 1] = [48; 120; 100; 101; 97; 100; 48; 49] /\ hex_from_str [48; 120; 68; 101; 65; 100; 48; 49] = Some [222; 173; 1]
  /\ hex_from_str [48; 120; 49] = None /\ hex_from_str [49; 50] = None.
Proof. repeat split; reflexivity. Qed.
(** The prefix may be doubled. *)
Theorem C85_prefix_refuted : exists t1 t2 b, map lower t1 <> map lower t2 /\ hex_from_str t1 = Some b /\ hex_from_str t2 = Some b.
Proof. exists (P0x ++ [49; 50]), (P0x ++ P0x ++ [49; 50]), [18]. repeat split; [discriminate|..]; reflexivity. Qed.

(** A key has 32 bytes. *)
Theorem C85_key t k : decode_256bits_key t = Some k <->
  length k = 32%nat /\ exists p ds, t = p ++ ds /\ (p = P0x \/ p = P0X) /\ spells ds k.
Proof.
  unfold decode_256bits_key. split.
  - destruct (starts P0x t || starts P0X t) eqn:E; [|discriminate].
    destruct (length t =? 66)%nat eqn:L; [|discriminate]. apply Nat.eqb_eq in L. intros H.
    apply orb_true_iff in E. destruct E as [E|E]; apply starts_spec in E as [r ->].
    + change (skipn 2 (P0x ++ r)) with r in H. apply hex_pairs_spells in H. pose proof (spells_length _ _ H) as S2.
      cbn in L. split; [lia|]. exists P0x, r. auto.
    + change (skipn 2 (P0X ++ r)) with r in H. apply hex_pairs_spells in H. pose proof (spells_length _ _ H) as S2.
      cbn in L. split; [lia|]. exists P0X, r. auto.
  - intros [L (p & ds & -> & Hp & H)]. pose proof (spells_length _ _ H) as S2.
    destruct Hp as [->| ->].
    + change (starts P0x (P0x ++ ds)) with true. change (skipn 2 (P0x ++ ds)) with ds. cbn [orb].
      replace (length (P0x ++ ds) =? 66)%nat with true by (symmetry; apply Nat.eqb_eq; cbn; lia). apply hex_pairs_spells, H.
    + change (starts P0X (P0X ++ ds)) with true. change (skipn 2 (P0X ++ ds)) with ds. rewrite orb_true_r.
      replace (length (P0X ++ ds) =? 66)%nat with true by (symmetry; apply Nat.eqb_eq; cbn; lia). apply hex_pairs_spells, H.
Qed.

(* ------------------------------------------------------------------ *)
(** * Numbers *)

Fixpoint hval (acc : N) (t : text) : option N :=
  match t with
  | [] => Some acc
  | c :: r => match digit_val 16 c with Some d => hval (acc * 16 + d) r | None => None end
  end.
Lemma hval_app a x y : hval a (x ++ y) = match hval a x with Some n => hval n y | None => None end.
Proof. revert a. induction x as [|c x IH]; intros a; cbn; [reflexivity|]. destruct (digit_val 16 c); [apply IH|reflexivity]. Qed.
Lemma hval_ge a t n : hval a t = Some n -> a <= n.
Proof.
  revert a. induction t as [|c t IH]; intros a H; cbn in H; [injection H as ->; lia|].
  destruct (digit_val 16 c); [|discriminate]. apply IH in H. lia.
Qed.
Lemma denotes_hval t n : denotes t n <-> hval 0 t = Some n.
Proof.
  split.
  - induction 1 as [|t n c d _ IH Hc]; [reflexivity|]. rewrite hval_app, IH. cbn.
    rewrite (proj2 (digit_val_stands c d) Hc). f_equal. lia.
  - revert n. induction t as [|c t IH] using rev_ind; intros n H; [injection H as <-; constructor|].
    rewrite hval_app in H. destruct (hval 0 t) as [m|] eqn:E; [|discriminate]. cbn in H.
    destruct (digit_val 16 c) as [d|] eqn:Ed; [|discriminate]. injection H as <-.
    replace (m * 16 + d) with (16 * m + d) by lia. constructor; [apply IH; reflexivity|apply digit_val_stands, Ed].
Qed.
Lemma parse_hval a t : a < 2 ^ 64 ->
  parse_digits 16 a t = match hval a t with Some n => if n <? 2 ^ 64 then Some n else None | None => None end.
Proof.
  revert a. induction t as [|c t IH]; intros a H.
  - cbn [parse_digits hval]. rewrite (proj2 (N.ltb_lt _ _) H). reflexivity.
  - cbn [parse_digits hval]. destruct (digit_val 16 c) as [d|]; [|reflexivity].
    destruct (2 ^ 64 <=? a * 16 + d) eqn:E.
    + apply N.leb_le in E. destruct (hval (a * 16 + d) t) as [n|] eqn:En; [|reflexivity].
      apply hval_ge in En. rewrite (proj2 (N.ltb_ge _ _)) by lia. reflexivity.
    + apply N.leb_gt in E. apply IH, E.
Qed.
(** Digits of more significance than zero, for the shortest form. *)
Lemma hval_bound a t n : hval a t = Some n -> n < (a + 1) * 16 ^ N.of_nat (length t).
Proof.
  revert a. induction t as [|c t IH]; intros a H; cbn [hval] in H; [injection H as ->; cbn; lia|].
  destruct (digit_val 16 c) as [d|] eqn:E; [|discriminate]. apply digit_val_lt in E. apply IH in H.
  cbn [length]. rewrite Nat2N.inj_succ, N.pow_succ_r'. nia.
Qed.
Lemma hval_lower a t n : hval a t = Some n -> a * 16 ^ N.of_nat (length t) <= n.
Proof.
  revert a. induction t as [|c t IH]; intros a H; cbn [hval] in H; [injection H as ->; cbn; lia|].
  destruct (digit_val 16 c) as [d|] eqn:E; [|discriminate]. apply IH in H.
  cbn [length]. rewrite Nat2N.inj_succ, N.pow_succ_r'. nia.
Qed.
Lemma hval_spells a t b : spells t b -> hval a t = Some (a * 256 ^ N.of_nat (length b) + be_val b).
Proof.
  intros H. revert a. induction H as [|h l x y t q Hx Hy _ IH]; intros a.
  - cbn [hval length]. rewrite be_val_nil. f_equal. change (N.of_nat 0) with 0. rewrite N.pow_0_r. lia.
  - cbn [hval]. rewrite (proj2 (digit_val_stands h x) Hx), (proj2 (digit_val_stands l y) Hy), IH. f_equal.
    rewrite be_val_cons. cbn [length]. rewrite Nat2N.inj_succ, N.pow_succ_r'. nia.
Qed.

Lemma drop_zeros_spec b : wf_bytes b -> wf_bytes (drop_zeros b) /\ be_val (drop_zeros b) = be_val b /\ hd 1 (drop_zeros b) <> 0.
Proof.
  induction 1 as [|x r Hx Hr IH]; [split; [constructor|split; [reflexivity|discriminate]]|].
  destruct x as [|p]; cbn [drop_zeros].
  - destruct IH as (A & B & C). split; [exact A|]. split; [|exact C]. rewrite be_val_cons, B. lia.
  - split; [constructor; assumption|]. split; [reflexivity|discriminate].
Qed.
Lemma uint_cases n : n < 2 ^ 256 ->
  (n = 0 /\ serialize_uint n = P0x ++ [48]) \/
  exists x r, wf_bytes (x :: r) /\ x <> 0 /\ be_val (x :: r) = n /\
    serialize_uint n = P0x ++ (if x / 16 =? 0 then [] else [hex_digit (x / 16)]) ++ [hex_digit (x mod 16)] ++ hex_encode r.
Proof.
  intros H. unfold serialize_uint. destruct (drop_zeros_spec (be_fixed 32 n) (be_fixed_wf 32 n)) as (A & B & C).
  rewrite be_val_fixed in B by (change (256 ^ N.of_nat 32) with (2 ^ 256); exact H).
  destruct (drop_zeros (be_fixed 32 n)) as [|x r]; [left; split; [rewrite <- B; apply be_val_nil|reflexivity]|].
  right. exists x, r. cbn in C. auto.
Qed.
(** The first digit is not zero. *)
Lemma uint_digits n : n < 2 ^ 256 -> n <> 0 ->
  exists d ds, serialize_uint n = P0x ++ hex_digit d :: ds /\ 0 < d < 16 /\ low_case ds /\ hval d ds = Some n.
Proof.
  intros H Hn. destruct (uint_cases n H) as [[-> _]|(x & r & W & X & V & E)]; [contradiction|].
  inversion W as [|? ? Wx Wr]; subst. unfold is_byte in Wx. rewrite E.
  assert (x / 16 < 16) by (apply N.div_lt_upper_bound; lia). assert (x mod 16 < 16) by (apply N.mod_lt; lia).
  pose proof (N.div_mod' x 16) as D.
  destruct (x / 16 =? 0) eqn:Z.
  - apply N.eqb_eq in Z. exists (x mod 16), (hex_encode r). split; [reflexivity|]. split; [lia|]. split; [apply encode_low, Wr|].
    rewrite (hval_spells _ _ _ (encode_spells r Wr)), be_val_cons. do 2 f_equal. lia.
  - apply N.eqb_neq in Z. exists (x / 16), (hex_digit (x mod 16) :: hex_encode r). split; [reflexivity|]. split; [lia|].
    split; [constructor; [apply digit_low; assumption|apply encode_low, Wr]|].
    cbn [hval]. rewrite digit_val_hex by assumption.
    rewrite (hval_spells _ _ _ (encode_spells r Wr)), be_val_cons. do 2 f_equal. lia.
Qed.

(** A number is written as the shortest string of lower case digits behind the prefix. *)
Theorem C85_number n : n < 2 ^ 256 ->
  exists ds, serialize_uint n = P0x ++ ds /\ denotes ds n /\ low_case ds /\ ds <> [] /\
    forall ds', denotes ds' n -> ds' <> [] -> (length ds <= length ds')%nat.
Proof.
  intros H. destruct (N.eq_dec n 0) as [->|Hn].
  - exists [48]. split; [reflexivity|]. split; [apply denotes_hval; reflexivity|].
    split; [constructor; [left; reflexivity|constructor]|]. split; [discriminate|].
    intros ds' _ Hne. destruct ds'; [contradiction|cbn; lia].
  - destruct (uint_digits n H Hn) as (d & ds & E & Hd & L & V). exists (hex_digit d :: ds). split; [exact E|].
    assert (V' : hval 0 (hex_digit d :: ds) = Some n) by (cbn [hval]; rewrite digit_val_hex by lia; exact V).
    split; [apply denotes_hval, V'|]. split; [constructor; [apply digit_low; lia|exact L]|]. split; [discriminate|].
    intros ds' H' _. apply denotes_hval in H'. apply hval_bound in H'. apply hval_lower in V. cbn [length].
    destruct (Nat.le_gt_cases (S (length ds)) (length ds')) as [G|G]; [exact G|exfalso].
    assert (16 ^ N.of_nat (length ds') <= 16 ^ N.of_nat (length ds)) by (apply N.pow_le_mono_r; lia). nia.
Qed.
Example C85_number_ex : serialize_uint 0 = P0x ++ [48] /\ serialize_uint 1337 = P0x ++ [53; 51; 57] /\
  serialize_uint 4096 = P0x ++ [49; 48; 48; 48].
Proof. repeat split; vm_compute; reflexivity. Qed.

(* ------------------------------------------------------------------ *)
(** * Block identifiers *)

Lemma parse_u64_plain c ds : c <> 43 -> parse_u64 16 (c :: ds) = match hval 0 (c :: ds) with Some n => if n <? 2 ^ 64 then Some n else None | None => None end.
Proof. intros H. unfold parse_u64. rewrite (proj2 (N.eqb_neq _ _) H). apply parse_hval. reflexivity. Qed.
Lemma parse_u64_spec t n : parse_u64 16 t = Some n <->
  n < 2 ^ 64 /\ exists p ds, t = p ++ ds /\ (p = [] \/ p = [43]) /\ ds <> [] /\ denotes ds n.
Proof.
  split.
  - intros H. destruct t as [|c r]; [discriminate|]. unfold parse_u64 in H. destruct (c =? 43) eqn:E.
    + apply N.eqb_eq in E. subst c. destruct r as [|c r]; [discriminate|]. rewrite parse_hval in H by reflexivity.
      destruct (hval 0 (c :: r)) as [m|] eqn:V; [|discriminate]. destruct (m <? 2 ^ 64) eqn:B; [|discriminate]. injection H as ->.
      split; [apply N.ltb_lt, B|]. exists [43], (c :: r). split; [reflexivity|]. split; [auto|]. split; [discriminate|apply denotes_hval, V].
    + rewrite parse_hval in H by reflexivity.
      destruct (hval 0 (c :: r)) as [m|] eqn:V; [|discriminate]. destruct (m <? 2 ^ 64) eqn:B; [|discriminate]. injection H as ->.
      split; [apply N.ltb_lt, B|]. exists [], (c :: r). split; [reflexivity|]. split; [auto|]. split; [discriminate|apply denotes_hval, V].
  - intros [B (p & ds & -> & Hp & Hne & V)]. apply denotes_hval in V. destruct ds as [|c r]; [contradiction|].
    destruct Hp as [->| ->].
    + change ([] ++ c :: r) with (c :: r). rewrite parse_u64_plain.
      * rewrite V, (proj2 (N.ltb_lt _ _) B). reflexivity.
      * intros ->. discriminate.
    + change (parse_u64 16 ([43] ++ c :: r)) with (parse_digits 16 0 (c :: r)). rewrite parse_hval, V, (proj2 (N.ltb_lt _ _) B) by reflexivity. reflexivity.
Qed.

(** Exactly the three names and the numbers below 2^64 behind the prefix are accepted; a plus sign may precede the digits. *)
Theorem C85_block t i : bid_of_str t = Some i <->
  (t = LATEST /\ i = BLatest) \/ (t = EARLIEST /\ i = BEarliest) \/ (t = PENDING /\ i = BPending) \/
  exists n p ds, i = BNum n /\ n < 2 ^ 64 /\ t = P0x ++ p ++ ds /\ (p = [] \/ p = [43]) /\ ds <> [] /\ denotes ds n.
Proof.
  unfold bid_of_str. split.
  - destruct (beqb t LATEST) eqn:E1; [apply beqb_eq in E1 as ->; intros H; injection H as <-; auto|].
    destruct (beqb t EARLIEST) eqn:E2; [apply beqb_eq in E2 as ->; intros H; injection H as <-; auto|].
    destruct (beqb t PENDING) eqn:E3; [apply beqb_eq in E3 as ->; intros H; injection H as <-; auto 6|].
    destruct (starts P0x t) eqn:E; [|discriminate]. apply starts_spec in E as [r ->].
    change (skipn 2 (P0x ++ r)) with r. destruct (parse_u64 16 r) as [n|] eqn:V; [|discriminate]. intros H. injection H as <-.
    apply parse_u64_spec in V as [B (p & ds & -> & Hp & Hne & V)]. right; right; right. exists n, p, ds. auto 10.
  - intros [[-> ->]|[[-> ->]|[[-> ->]|(n & p & ds & -> & B & -> & Hp & Hne & V)]]]; [reflexivity..|].
    change (beqb (P0x ++ p ++ ds) LATEST) with (if list_eq_dec N.eq_dec (P0x ++ p ++ ds) LATEST then true else false).
    assert (X : forall y, hd 0 y <> 48 -> beqb (P0x ++ p ++ ds) y = false).
    { intros y Hy. destruct (beqb (P0x ++ p ++ ds) y) eqn:E; [|reflexivity]. apply beqb_eq in E. subst y. exfalso. apply Hy. reflexivity. }
    rewrite (X EARLIEST), (X PENDING) by discriminate. fold (beqb (P0x ++ p ++ ds) LATEST). rewrite (X LATEST) by discriminate.
    change (starts P0x (P0x ++ p ++ ds)) with true. change (skipn 2 (P0x ++ p ++ ds)) with (p ++ ds).
    rewrite (proj2 (parse_u64_spec (p ++ ds) n)); [reflexivity|]. split; [exact B|]. exists p, ds. auto.
Qed.
(** A number written as a quantity selects that block. *)
Theorem C85_block_number n : n < 2 ^ 64 -> bid_of_str (serialize_uint n) = Some (BNum n).
Proof.
  intros H. destruct (C85_number n) as (ds & E & V & L & Hne & _); [eapply N.lt_trans; [exact H|reflexivity]|].
  apply C85_block. right; right; right. exists n, [], ds. auto 10.
Qed.
(** The object form selects by number in the same way, by hash for 32 bytes; it has exactly one member. *)
Theorem C85_block_object : (forall t, bid_of_map [(KNumber, Some t)] = if starts P0x t then bid_of_str t else None) /\
  (forall h, wf_bytes h -> length h = 32%nat -> bid_of_map [(KHash, Some (hex_text h))] = Some (BHash h)) /\
  (forall l i, bid_of_map l = Some i -> length l = 1%nat /\ ((exists n, i = BNum n /\ n < 2 ^ 64) \/ exists h, i = BHash h /\ length h = 32%nat)).
Proof.
  split; [|split].
  - intros t. cbn [bid_of_map]. destruct (starts P0x t) eqn:E; [|reflexivity]. unfold bid_of_str.
    apply starts_spec in E as [r ->].
    assert (X : forall y, hd 0 y <> 48 -> beqb (P0x ++ r) y = false).
    { intros y Hy. destruct (beqb (P0x ++ r) y) eqn:E; [|reflexivity]. apply beqb_eq in E. subst y. exfalso. apply Hy. reflexivity. }
    rewrite (X LATEST), (X EARLIEST), (X PENDING) by discriminate. reflexivity.
  - intros h W L. cbn [bid_of_map]. rewrite (C85_bytes h W), L. reflexivity.
  - intros l i H. destruct l as [|[k [v|]] [|y rest]]; [discriminate| | |destruct k; discriminate|destruct k; discriminate];
      [|destruct k; discriminate]. split; [reflexivity|].
    destruct k; cbn [bid_of_map] in H; [| |discriminate].
    + destruct (starts P0x v); [|discriminate]. destruct (parse_u64 16 (skipn 2 v)) as [n|] eqn:V; [|discriminate].
      injection H as <-. left. exists n. apply parse_u64_spec in V as [B _]. auto.
    + destruct (hex_from_str v) as [b|]; [|discriminate]. destruct (length b =? 32)%nat eqn:L; [|discriminate].
      injection H as <-. right. exists b. apply Nat.eqb_eq in L. auto.
Qed.
Example C85_block_ex : bid_of_str LATEST = Some BLatest /\ bid_of_str (P0x ++ [49; 48]) = Some (BNum 16) /\ bid_of_str [49; 48] = None /\
  bid_of_str P0x = None /\ bid_of_map [(KHash, Some (P0x ++ [49; 48]))] = None.
Proof. repeat split; reflexivity. Qed.
(** A plus sign is accepted. *)
Theorem C85_sign_refuted : exists t, hd 0 (skipn 2 t) = 43 /\ bid_of_str t = Some (BNum 5).
Proof. exists (P0x ++ [43; 53]). split; reflexivity. Qed.

Lemma hex_aux_chars f n acc : Forall (fun c => In c LOW) acc -> low_case (hex_aux f n acc).
Proof.
  revert n acc. induction f as [|f IH]; intros n acc H; [exact H|]. cbn [hex_aux].
  assert (n mod 16 < 16) by (apply N.mod_lt; lia).
  assert (H' : Forall (fun c => In c LOW) (hex_digit (n mod 16) :: acc)) by (constructor; [apply digit_low; assumption|exact H]).
  destruct (n / 16 =? 0); [exact H'|apply IH, H'].
Qed.
(** No number and no hash written by the Serialize of BlockId is read back by its Deserialize: the prefix is missing. *)
Theorem C85_block_text_refuted : (forall n, bid_of_str (bid_text (BNum n)) = None) /\
  (forall h, wf_bytes h -> bid_of_str (bid_text (BHash h)) = None) /\
  exists i, bid_of_str (bid_text i) <> Some i.
Proof.
  assert (G : forall t, low_case t -> bid_of_str t = None).
  { intros t H. unfold bid_of_str. rewrite (starts_low _ H).
    assert (X : forall y, ~ Forall (fun c => In c LOW) y -> beqb t y = false).
    { intros y Hy. destruct (beqb t y) eqn:E; [|reflexivity]. apply beqb_eq in E. subst y. contradiction. }
    assert (Y : forall c y, existsb (N.eqb c) LOW = false -> In c y -> ~ Forall (fun c => In c LOW) y).
    { intros c y E I F. rewrite Forall_forall in F. apply F in I.
      assert (existsb (N.eqb c) LOW = true) by (apply existsb_exists; exists c; split; [exact I|apply N.eqb_refl]). congruence. }
    rewrite (X LATEST), (X EARLIEST), (X PENDING); [reflexivity|apply (Y 112)|apply (Y 108)|apply (Y 108)]; (reflexivity || (cbn; tauto)). }
  split; [|split].
  - intros n. apply G. unfold bid_text, lower_hex. apply hex_aux_chars. constructor.
  - intros h W. apply G, encode_low, W.
  - exists (BNum 5). discriminate.
Qed.

(* ------------------------------------------------------------------ *)
(** * Addresses *)

Lemma lower_idem c : lower (lower c) = lower c.
Proof.
  unfold lower. destruct ((65 <=? c) && (c <=? 90)) eqn:E; [|rewrite E; reflexivity].
  apply andb_true_iff in E as [A B]. apply N.leb_le in A, B.
  replace (c + 32 <=? 90) with false by (symmetry; apply N.leb_gt; lia). rewrite andb_false_r. reflexivity.
Qed.
Lemma lower_upper c : lower (upper c) = lower c.
Proof.
  unfold upper. destruct ((97 <=? c) && (c <=? 122)) eqn:E; [|reflexivity].
  apply andb_true_iff in E as [A B]. apply N.leb_le in A, B. unfold lower.
  replace (65 <=? c - 32) with true by (symmetry; apply N.leb_le; lia).
  replace (c - 32 <=? 90) with true by (symmetry; apply N.leb_le; lia).
  replace (c <=? 90) with false by (symmetry; apply N.leb_gt; lia). rewrite andb_false_r. cbn [andb]. lia.
Qed.
Lemma map_lower_idem t : map lower (map lower t) = map lower t.
Proof. rewrite map_map. apply map_ext, lower_idem. Qed.
Lemma encode_length b : length (hex_encode b) = (2 * length b)%nat.
Proof. induction b as [|x b IH]; [reflexivity|]. cbn [hex_encode flat_map app length]. fold (hex_encode b). lia. Qed.
Lemma encode_lower b : wf_bytes b -> map lower (hex_encode b) = hex_encode b.
Proof. intros H. apply spells_lower, encode_spells, H. Qed.
Lemma encode_inj a b : wf_bytes a -> wf_bytes b -> hex_encode a = hex_encode b -> a = b.
Proof.
  intros A B E. apply encode_spells, hex_pairs_spells in A. apply encode_spells, hex_pairs_spells in B. rewrite E in A. congruence.
Qed.
Lemma trim_none f t : starts P0x t = false -> trim_0x f t = t.
Proof. intros H. destruct f; [reflexivity|]. cbn [trim_0x]. rewrite H. reflexivity. Qed.
Lemma trim_one f q : starts P0x q = false -> trim_0x (S f) (P0x ++ q) = q.
Proof.
  intros H. cbn [trim_0x]. change (starts P0x (P0x ++ q)) with true. change (skipn 2 (P0x ++ q)) with q. cbv iota. apply trim_none, H.
Qed.
Lemma map_lower_no_prefix q : starts P0x (map lower q) = false -> starts P0x q = false.
Proof.
  intros H. destruct (starts P0x q) eqn:E; [|reflexivity]. apply starts_spec in E as [r ->]. discriminate.
Qed.
Lemma case_by_ok ds a : (length a <= length ds)%nat -> exists q, case_by ds a = Ok q /\ map lower q = map lower a.
Proof.
  revert a. induction ds as [|d ds IH]; intros [|c a] L; cbn in L; [exists []; auto|lia|exists []; auto|].
  destruct (IH a) as (q & E & M); [lia|]. cbn [case_by]. rewrite E. eexists. split; [reflexivity|].
  cbn [map]. rewrite M. f_equal. match goal with |- context [if ?b then _ else _] => destruct b end; [apply lower_upper|reflexivity].
Qed.

Lemma case_by_nth ds x q i c k : case_by ds x = Ok q -> nth_error x i = Some c -> nth_error ds i = Some (hex_digit k) -> k < 16 ->
  nth_error q i = Some (if 8 <=? k then upper c else c).
Proof.
  revert x q i. induction ds as [|d ds IH]; intros x q i E X D K; [destruct i; discriminate D|].
  destruct x as [|y x]; [destruct i; discriminate X|]. cbn [case_by] in E. destruct (case_by ds x) as [r| |] eqn:R; [|discriminate E..].
  injection E as <-. destruct i as [|i]; cbn [nth_error] in X, D |- *.
  - injection X as ->. injection D as ->. rewrite digit_val_hex by exact K.
    replace (7 <? k) with (8 <=? k); [reflexivity|]. destruct (N.leb_spec 8 k), (N.ltb_spec 7 k); reflexivity || lia.
  - eapply IH; eassumption.
Qed.
Definition nibbles (b : bytes) : list N := flat_map (fun x => [x / 16; x mod 16]) b.
Lemma encode_nibbles b : hex_encode b = map hex_digit (nibbles b).
Proof. induction b as [|x b IH]; [reflexivity|]. cbn [nibbles flat_map map app]. cbn [hex_encode flat_map app]. do 2 f_equal. exact IH. Qed.
Lemma nibbles_lt b i d : wf_bytes b -> nth_error (nibbles b) i = Some d -> d < 16.
Proof.
  intros W H. apply nth_error_In in H. apply in_flat_map in H as (x & I & H). unfold wf_bytes in W. rewrite Forall_forall in W.
  specialize (W _ I). unfold is_byte in W. destruct H as [<-|[<-|[]]]; [apply N.div_lt_upper_bound; lia|apply N.mod_lt; lia].
Qed.

Section Address.
  Variable keccak : bytes -> bytes.
  Hypothesis keccak_32 : forall x, length (keccak x) = 32%nat.

  Lemma checksum_ok t : (length (trim_0x (length t) t) <= 64)%nat ->
    exists q, checksum keccak t = Ok (P0x ++ q) /\ map lower q = map lower (trim_0x (length t) t).
  Proof using keccak_32.
    intros L. unfold checksum. destruct (case_by_ok (hex_encode (keccak (map lower (trim_0x (length t) t)))) (map lower (trim_0x (length t) t))) as (q & E & M).
    - rewrite map_length, encode_length, keccak_32. cbn. lia.
    - rewrite E. exists q. split; [reflexivity|]. rewrite M. apply map_lower_idem.
  Qed.
  Lemma checksum_prefix t c : checksum keccak t = Ok c -> exists q, c = P0x ++ q.
  Proof using Type.
    unfold checksum. destruct (case_by _ _) as [q| |]; [|discriminate..]. intros H. injection H as <-. eauto.
  Qed.
  (** The checksum depends on the trimmed text without its case. *)
  Lemma checksum_same t t' : map lower (trim_0x (length t) t) = map lower (trim_0x (length t') t') -> checksum keccak t = checksum keccak t'.
  Proof using Type. unfold checksum. intros ->. reflexivity. Qed.

  (** Every address has a text, which differs from the plain digits in case only, and it is read back. *)
  Theorem C85_address a : wf_bytes a -> length a = 20%nat ->
    exists t, address_text keccak a = Ok t /\ map lower t = P0x ++ hex_encode a /\ address_from_str keccak t = Ok a.
  Proof using keccak_32.
    intros W L. pose proof (encode_low a W) as Lo. pose proof (starts_low _ Lo) as NP.
    assert (T0 : trim_0x (length (hex_encode a)) (hex_encode a) = hex_encode a) by (apply trim_none, NP).
    destruct (checksum_ok (hex_encode a)) as (q & E & M); [rewrite T0, encode_length, L; cbn; lia|].
    rewrite T0, (encode_lower a W) in M. exists (P0x ++ q). split; [exact E|].
    assert (ML : map lower (P0x ++ q) = P0x ++ hex_encode a) by (rewrite map_app, M; reflexivity).
    split; [exact ML|]. unfold address_from_str.
    assert (NQ : starts P0x q = false) by (apply map_lower_no_prefix; rewrite M; exact NP).
    rewrite (checksum_same _ (hex_encode a)); [fold (address_text keccak a); unfold address_text; rewrite E, (proj2 (beqb_eq _ _) eq_refl), ML|].
    - unfold address_from_hex. change (starts P0x (P0x ++ hex_encode a)) with true. change (skipn 2 (P0x ++ hex_encode a)) with (hex_encode a).
      cbn [orb]. unfold hex_decode. rewrite NP, (proj2 (hex_pairs_spells _ _) (encode_spells a W)), L. reflexivity.
    - rewrite T0, (encode_lower a W). change (length (P0x ++ q)) with (S (S (length q))). rewrite trim_one by exact NQ. exact M.
  Qed.

  (** A text is accepted for the address that it spells only; with one prefix only in the case that the address is written in. *)
  Theorem C85_address_only t a : address_from_str keccak t = Ok a ->
    wf_bytes a /\ length a = 20%nat /\ exists p, (p = [] \/ p = P0x) /\ map lower t = P0x ++ p ++ hex_encode a /\ (p = [] -> address_text keccak a = Ok t).
  Proof using Type.
    unfold address_from_str. destruct (checksum keccak t) as [c| |] eqn:C; [|discriminate..].
    destruct (beqb c t) eqn:Q; [|discriminate]. apply beqb_eq in Q. subst c.
    destruct (checksum_prefix _ _ C) as [q ->]. unfold address_from_hex. rewrite map_app. change (map lower P0x) with P0x.
    change (starts P0x (P0x ++ map lower q)) with true. change (skipn 2 (P0x ++ map lower q)) with (map lower q). cbn [orb].
    unfold hex_decode. destruct (starts P0x (map lower q)) eqn:NP.
    - apply starts_spec in NP as [r E]. rewrite E. change (skipn 2 (P0x ++ r)) with r.
      destruct (hex_pairs r) as [b|] eqn:B; [|discriminate]. destruct (length b =? 20)%nat eqn:L; [|discriminate].
      intros H. injection H as ->. apply Nat.eqb_eq in L. apply hex_pairs_spells in B. split; [eapply spells_wf, B|]. split; [exact L|].
      exists P0x. split; [auto|]. split; [|discriminate]. f_equal. f_equal. rewrite <- (spells_lower _ _ B).
      assert (M : map lower (map lower q) = map lower (P0x ++ r)) by (f_equal; exact E). rewrite map_lower_idem, E in M.
      injection M as M. symmetry. rewrite <- M. reflexivity.
    - destruct (hex_pairs (map lower q)) as [b|] eqn:B; [|discriminate]. destruct (length b =? 20)%nat eqn:L; [|discriminate].
      intros H. injection H as ->. apply Nat.eqb_eq in L. apply hex_pairs_spells in B. pose proof (spells_wf _ _ B) as W.
      split; [exact W|]. split; [exact L|]. pose proof (spells_lower _ _ B) as M. rewrite map_lower_idem in M.
      exists []. split; [auto|]. split; [rewrite M; reflexivity|]. intros _. unfold address_text. rewrite <- C. apply checksum_same.
      rewrite (trim_none _ (hex_encode a)) by (apply starts_low, encode_low, W).
      change (length (P0x ++ q)) with (S (S (length q))). rewrite trim_one by (apply map_lower_no_prefix, NP). rewrite M. apply encode_lower, W.
  Qed.

  (** The digits of an address in any other case are refused. *)
  Theorem C85_address_case t a : wf_bytes a -> length a = 20%nat -> map lower t = P0x ++ hex_encode a ->
    address_text keccak a <> Ok t -> address_from_str keccak t = Err.
  Proof using keccak_32.
    intros W L M NE. destruct (address_from_str keccak t) as [b| |] eqn:E; [exfalso|reflexivity|exfalso].
    - apply C85_address_only in E as (Wb & Lb & p & Hp & M' & T). rewrite M in M'. apply app_inv_head in M'.
      destruct Hp as [->| ->].
      + apply encode_inj in M'; [|assumption..]. subst b. apply NE, T. reflexivity.
      + apply (f_equal (@length N)) in M'. rewrite app_length, !encode_length in M'. cbn in M'. lia.
    - unfold address_from_str in E. destruct (checksum keccak t) as [c| |] eqn:C.
      + destruct (beqb c t); [|discriminate]. unfold of_option in E. destruct (address_from_hex (map lower t)); discriminate.
      + discriminate.
      + destruct (checksum_ok t) as (q & E' & _); [|congruence].
        assert (G : forall f x, (length (trim_0x f x) <= length x)%nat).
        { induction f as [|f IH]; intros x; cbn [trim_0x]; [lia|]. destruct (starts P0x x) eqn:Sx; [|lia].
          apply starts_spec in Sx as [r ->]. change (skipn 2 (P0x ++ r)) with r. specialize (IH r). cbn. lia. }
        specialize (G (length t) t). apply (f_equal (@length N)) in M. rewrite map_length, app_length, encode_length in M. cbn in M. lia.
  Qed.

  (** The case of every letter is the one of EIP-55: upper exactly where the hash of the lower case digits has a nibble from 8 on. *)
  Theorem C85_address_checksum a t i d k : wf_bytes a -> (forall x, wf_bytes (keccak x)) -> address_text keccak a = Ok t ->
    nth_error (nibbles a) i = Some d -> nth_error (nibbles (keccak (hex_encode a))) i = Some k ->
    nth_error t (2 + i) = nth_error (if 8 <=? k then UP else LOW) (N.to_nat d).
  Proof using Type.
    intros W WK E D K. pose proof (nibbles_lt _ _ _ W D) as Ld. pose proof (nibbles_lt _ _ _ (WK _) K) as Lk.
    unfold address_text, checksum in E. rewrite (trim_none _ (hex_encode a)), (encode_lower a W) in E by (apply starts_low, encode_low, W).
    destruct (case_by _ _) as [q| |] eqn:Q; [|discriminate E..]. injection E as <-. 
    transitivity (nth_error q i); [reflexivity|].
    rewrite (case_by_nth _ _ _ i (hex_digit d) k Q); [| | |exact Lk].
    - clear -Ld. destruct (8 <=? k); pattern d; apply below16; (exact Ld || reflexivity).
    - rewrite encode_nibbles. apply map_nth_error, D.
    - rewrite encode_nibbles. apply map_nth_error, K.
  Qed.
End Address.

(** The example of EIP-55. *)
Definition A55 : bytes := [90; 174; 182; 5; 63; 62; 148; 201; 185; 160; 159; 51; 102; 148; 53; 231; 239; 27; 234; 237].
Definition T55 : text := [48; 120; 53; 97; 65; 101; 98; 54; 48; 53; 51; 70; 51; 69; 57; 52; 67; 57; 98; 57; 65; 48; 57; 102; 51; 51; 54; 54; 57; 52; 51; 53;
  69; 55; 69; 102; 49; 66; 101; 65; 101; 100].
Example C85_address_ex : address_text keccak256 A55 = Ok T55 /\ address_from_str keccak256 T55 = Ok A55 /\
  address_from_str keccak256 (map lower T55) = Err.
Proof. repeat split; vm_compute; reflexivity. Qed.
(** One address has a second text, of two prefixes. *)
Theorem C85_address_refuted : exists t1 t2 a, map lower t1 <> map lower t2 /\
  address_from_str keccak256 t1 = Ok a /\ address_from_str keccak256 t2 = Ok a.
Proof.
  exists (P0x ++ repeat 48 39 ++ [49]), (match checksum keccak256 (P0x ++ P0X ++ hex_encode (be_fixed 20 1)) with Ok t => t | _ => [] end), (be_fixed 20 1).
  split; [|split; vm_compute; reflexivity]. intros E. apply (f_equal (@length N)) in E. vm_compute in E. discriminate.
Qed.
(** A text of more than 64 characters behind the prefix panics. *)
Lemma case_by_panic ds a : (length ds < length a)%nat -> case_by ds a = Panic.
Proof.
  revert a. induction ds as [|d ds IH]; intros [|c a] L; cbn in L; [lia|reflexivity|lia|]. cbn [case_by]. rewrite IH by lia. reflexivity.
Qed.
Theorem C85_address_panic_refuted keccak : (forall x, length (keccak x) = 32%nat) ->
  exists t, length t = 67%nat /\ address_from_str keccak t = Panic.
Proof.
  intros K. exists (P0x ++ repeat 48 65). split; [reflexivity|]. unfold address_from_str, checksum.
  rewrite case_by_panic; [reflexivity|]. rewrite encode_length, K. vm_compute. lia.
Qed.

(* ------------------------------------------------------------------ *)
(** * The numbers of the light client *)

Lemma digit_ascii c d : digit_val 16 c = Some d -> c < 128 /\ c <> 43.
Proof.
  intros H. apply digit_val_stands in H. pose proof (stands_lt _ _ H) as L. revert H. pattern d. apply below16; [exact L|..];
    (intros [H|H]; cbn in H; injection H as <-; (split; [reflexivity|discriminate])).
Qed.
Lemma boundary_ascii t i c d : nth_error t i = Some c -> digit_val 16 c = Some d -> boundary t i = true.
Proof.
  intros H D. apply digit_ascii in D as [D _]. unfold boundary. rewrite H. replace (128 <=? c) with false by (symmetry; apply N.leb_gt, D). reflexivity.
Qed.
Lemma parse_u8_digits c ds n : hval 0 (c :: ds) = Some n -> n < 256 -> parse_u8 (c :: ds) = Some n.
Proof.
  intros H B. unfold parse_u8. assert (C : c <> 43). { cbn in H. destruct (digit_val 16 c) eqn:E; [|discriminate]. apply digit_ascii in E. tauto. }
  rewrite (proj2 (N.eqb_neq _ _) C). rewrite parse_hval, H by reflexivity.
  assert (n <? 2 ^ 64 = true) as -> by (apply N.ltb_lt; eapply N.lt_trans; [exact B|reflexivity]).
  rewrite (proj2 (N.ltb_lt _ _) B). reflexivity.
Qed.
Lemma tools_pairs_spells t b : spells t b -> forall f, (length t <= f)%nat -> tools_pairs f t = Ok b.
Proof.
  induction 1 as [|h l x y t q Hx Hy S0 IH]; intros f L; [destruct f; reflexivity|].
  destruct f as [|f]; [cbn in L; lia|]. cbn [length] in L. cbn [tools_pairs].
  pose proof (stands_lt _ _ Hx). pose proof (stands_lt _ _ Hy). apply digit_val_stands in Hx, Hy.
  assert (B : boundary (h :: l :: t) 2 = true).
  { inversion S0 as [|h' l' x' y' t' q' Hx' Hy' S1]; subst; [reflexivity|]. apply digit_val_stands in Hx'. eapply boundary_ascii; [reflexivity|exact Hx']. }
  rewrite B. cbn [negb]. change (firstn 2 (h :: l :: t)) with [h; l]. change (skipn 2 (h :: l :: t)) with t.
  rewrite (parse_u8_digits h [l] (16 * x + y)); [|cbn [hval]; rewrite Hx, Hy; f_equal; lia|lia].
  rewrite IH by lia. reflexivity.
Qed.
Lemma drop_zeros_length b : (length (drop_zeros b) <= length b)%nat.
Proof. induction b as [|[|x] b IH]; cbn [drop_zeros length]; lia. Qed.
Lemma lead_le x r : x <> 0 -> 256 ^ N.of_nat (length r) <= be_val (x :: r).
Proof. intros H. rewrite be_val_cons. nia. Qed.

(** A number that fits is read as it is written. *)
Theorem C85_client_number bits n : bits <= 256 -> n < 2 ^ bits -> tools_uint bits (serialize_uint n) = Ok n.
Proof.
  intros Hb H. assert (H256 : n < 2 ^ 256) by (eapply N.lt_le_trans; [exact H|apply N.pow_le_mono_r; lia]).
  destruct (uint_cases n H256) as [[-> ->]|(x & r & W & X & V & E)]; [reflexivity|].
  assert (Ln : (length (x :: r) <= 32)%nat).
  { cbn [length]. pose proof (lead_le x r X) as G. rewrite V in G.
    destruct (Nat.le_gt_cases (S (length r)) 32) as [Q|Q]; [exact Q|exfalso].
    assert (256 ^ 32 <= 256 ^ N.of_nat (length r)) by (apply N.pow_le_mono_r; lia).
    change (256 ^ 32) with (2 ^ 256) in *. lia. }
  inversion W as [|? ? Wx Wr]; subst x0 l. unfold is_byte in Wx.
  set (ds := (if x / 16 =? 0 then [] else [hex_digit (x / 16)]) ++ [hex_digit (x mod 16)] ++ hex_encode r) in *.
  assert (x / 16 < 16) by (apply N.div_lt_upper_bound; lia). assert (x mod 16 < 16) by (apply N.mod_lt; lia).
  pose proof (N.div_mod' x 16) as D.
  assert (D0 : exists c d rest, ds = c :: rest /\ digit_val 16 c = Some d /\ (rest = [] -> c <> 48)).
  { subst ds. destruct (x / 16 =? 0) eqn:Z.
    - apply N.eqb_eq in Z. exists (hex_digit (x mod 16)), (x mod 16), (hex_encode r). split; [reflexivity|]. split; [apply digit_val_hex; assumption|].
      intros _ Q. assert (Some (x mod 16) = Some 0) by (rewrite <- digit_val_hex by assumption; rewrite Q; reflexivity). assert (x mod 16 = 0) by congruence. lia.
    - exists (hex_digit (x / 16)), (x / 16), (hex_digit (x mod 16) :: hex_encode r). split; [reflexivity|]. split; [apply digit_val_hex; assumption|discriminate]. }
  assert (F : tools_from_hex ds = Ok (x :: r)).
  { unfold tools_from_hex. subst ds. destruct (x / 16 =? 0) eqn:Z.
    - apply N.eqb_eq in Z. cbn [app length]. rewrite encode_length, Nat.odd_succ, Nat.even_mul. cbn [Nat.even orb].
      assert (B : boundary (hex_digit (x mod 16) :: hex_encode r) 1 = true).
      { destruct r as [|y r']; [reflexivity|]. inversion Wr as [|? ? Wy _]; subst. unfold is_byte in Wy. eapply boundary_ascii; [reflexivity|].
        apply digit_val_hex. apply N.div_lt_upper_bound; lia. }
      rewrite B. cbn [negb]. change (firstn 1 (hex_digit (x mod 16) :: hex_encode r)) with [hex_digit (x mod 16)].
      change (skipn 1 (hex_digit (x mod 16) :: hex_encode r)) with (hex_encode r).
      rewrite (parse_u8_digits _ [] x); [|cbn [hval]; rewrite digit_val_hex by assumption; f_equal; lia|lia].
      rewrite (tools_pairs_spells _ r (encode_spells r Wr)); [reflexivity|rewrite encode_length; lia].
    - cbn [app length]. rewrite encode_length. change (S (S (2 * length r))) with (2 + 2 * length r)%nat.
      rewrite Nat.odd_add, Nat.odd_mul. cbn [Nat.odd Nat.even negb andb xorb].
      apply (tools_pairs_spells _ (x :: r) (encode_spells (x :: r) W)). cbn [hex_encode flat_map app length]. fold (hex_encode r). rewrite encode_length. lia. }
  destruct D0 as (c & d & rest & Ec & Dc & Nz). rewrite E, Ec. unfold tools_uint.
  assert (Q : beqb (P0x ++ c :: rest) (P0x ++ [48]) = false).
  { destruct (beqb (P0x ++ c :: rest) (P0x ++ [48])) eqn:Q; [|reflexivity]. apply beqb_eq in Q. apply app_inv_head in Q. injection Q as -> ->. exfalso. apply Nz; reflexivity. }
  rewrite Q. change (2 <=? length (P0x ++ c :: rest))%nat with true. cbv iota.
  rewrite (boundary_ascii (P0x ++ c :: rest) 2 c d) by (reflexivity || exact Dc). cbn [negb].
  change (starts P0x (P0x ++ c :: rest)) with true. change (skipn 2 (P0x ++ c :: rest)) with (c :: rest). cbv iota. rewrite <- Ec, F.
  replace (32 <? length (x :: r))%nat with false by (symmetry; apply Nat.ltb_ge, Ln). rewrite V, N.mod_small by exact H. reflexivity.
Qed.
Example C85_client_ex : tools_uint 64 (serialize_uint (2 ^ 64 - 1)) = Ok (2 ^ 64 - 1) /\ tools_uint 32 (serialize_uint 10) = Ok 10 /\ tools_uint 64 [49] = Err.
Proof. repeat split; vm_compute; reflexivity. Qed.
(** A number that does not fit is cut, not refused. *)
Theorem C85_client_cut_refuted : exists n, n = 2 ^ 64 + 1 /\ tools_uint 64 (serialize_uint n) = Ok 1 /\
  tools_uint 32 (serialize_uint (2 ^ 32 + 7)) = Ok 7.
Proof. exists (2 ^ 64 + 1). repeat split; vm_compute; reflexivity. Qed.
(** More than 64 digits, or a character of several bytes behind the first character, panics. *)
Theorem C85_client_panic_refuted : tools_uint 64 (P0x ++ repeat 49 66) = Panic /\ tools_uint 64 [226; 130; 172] = Panic /\
  tools_uint 64 (P0x ++ [48; 226; 130; 172]) = Panic.
Proof. repeat split; vm_compute; reflexivity. Qed.

Print Assumptions C85_bytes.
Print Assumptions C85_bytes_only.
Print Assumptions C85_bytes_accepts.
Print Assumptions C85_prefix_refuted.
Print Assumptions C85_key.
Print Assumptions C85_number.
Print Assumptions C85_block.
Print Assumptions C85_block_number.
Print Assumptions C85_block_object.
Print Assumptions C85_sign_refuted.
Print Assumptions C85_block_text_refuted.
Print Assumptions C85_address.
Print Assumptions C85_address_only.
Print Assumptions C85_address_case.
Print Assumptions C85_address_checksum.
Print Assumptions C85_address_refuted.
Print Assumptions C85_address_panic_refuted.
Print Assumptions C85_client_number.
Print Assumptions C85_client_cut_refuted.
Print Assumptions C85_client_panic_refuted.
