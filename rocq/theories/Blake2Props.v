(** C66: the BLAKE2b compression precompile (address 9) computes the function F of RFC 7693 as EIP-152 asks. *)
From Coq Require Import Lia.
From Verif Require Import Bytes BytesProofs Rlp TxModel PrecompModel ModExpProps.

(* ---------------------------------------------------------------------- *)
(** * RFC 7693, section 3.1 and 3.2, on a matrix of four rows *)

Definition rot (x k : N) : N := x / 2 ^ k + x mod 2 ^ k * 2 ^ (64 - k).
Definition plus (a b : N) : N := (a + b) mod 2 ^ 64.
Definition G (a b c d x y : N) : N * N * N * N :=
  let a := plus a (plus b x) in
  let d := rot (N.lxor d a) 32 in
  let c := plus c d in
  let b := rot (N.lxor b c) 24 in
  let a := plus a (plus b y) in
  let d := rot (N.lxor d a) 16 in
  let c := plus c d in
  let b := rot (N.lxor b c) 63 in
  (a, b, c, d).

(** the initialisation vector: fractional parts of the square roots of the first eight primes *)
Definition iv_spec : list N := map (fun p => N.sqrt (p * 2 ^ 128) mod 2 ^ 64) [2; 3; 5; 7; 11; 13; 17; 19].
(** the ten permutations, one hexadecimal digit for each word *)
Definition sigma_spec : list N :=
  [0x0123456789abcdef; 0xea489fd61c02b753; 0xb8c052fdae367194; 0x7931dcbe265a40f8; 0x905724afe1bc683d;
   0x2c6a0b834d75fe19; 0xc51fed4a0763928b; 0xdb7ec13950f4862a; 0x6fe9b308c2d714a5; 0xa2847615fb9e3cd0].
Definition sigma (r j : nat) : nat := N.to_nat (nth (r mod 10) sigma_spec 0 / 16 ^ (15 - N.of_nat j) mod 16).

Definition matrix : Type := list N * list N * list N * list N.
(** G on each column; the words come in pairs *)
Fixpoint columns (a b c d w : list N) : matrix :=
  match a, b, c, d, w with
  | a0 :: ar, b0 :: br, c0 :: cr, d0 :: dr, x :: y :: wr =>
      let '(a0, b0, c0, d0) := G a0 b0 c0 d0 x y in
      let '(ar, br, cr, dr) := columns ar br cr dr wr in
      (a0 :: ar, b0 :: br, c0 :: cr, d0 :: dr)
  | _, _, _, _, _ => ([], [], [], [])
  end.
(** row turned left by k *)
Definition turn (k : nat) (l : list N) : list N := skipn k l ++ firstn k l.
Definition round_spec (m : list N) (r : nat) (v : matrix) : matrix :=
  let w := map (fun j => nth (sigma r j) m 0) (seq 0 16) in
  let '(a, b, c, d) := v in
  let '(a, b, c, d) := columns a b c d (firstn 8 w) in
  let '(a, b, c, d) := columns a (turn 1 b) (turn 2 c) (turn 3 d) (skipn 8 w) in
  (a, turn 3 b, turn 2 c, turn 1 d).
Fixpoint rounds_spec (m : list N) (n : nat) (v : matrix) : matrix :=
  match n with O => v | S k => round_spec m k (rounds_spec m k v) end.

Definition zip_xor (a b : list N) : list N := map (fun '(x, y) => N.lxor x y) (combine a b).
(** F h m t f with the given number of rounds *)
Definition F_spec (rounds : nat) (h m : list N) (t : N) (f : bool) : list N :=
  let v := (firstn 4 h, skipn 4 h, firstn 4 iv_spec,
            zip_xor (skipn 4 iv_spec) [t mod 2 ^ 64; t / 2 ^ 64; if f then 2 ^ 64 - 1 else 0; 0]) in
  let '(a, b, c, d) := rounds_spec m rounds v in
  zip_xor h (zip_xor (a ++ b) (c ++ d)).

(** EIP-152: 4 bytes of rounds, big endian; 64 of h, 128 of m and 16 of t, little endian; one of f *)
Definition chunk (i : bytes) (off n : nat) : bytes := map (fun k => nth (off + k) i 0) (seq 0 n).
Definition h_in (i : bytes) : list N := map (fun k => le_val (chunk i (4 + 8 * k) 8)) (seq 0 8).
Definition m_in (i : bytes) : list N := map (fun k => le_val (chunk i (68 + 8 * k) 8)) (seq 0 16).
Definition eip152 (i : bytes) : option (bytes * N) :=
  if (length i =? 213)%nat && (nth 212 i 0 <=? 1) then
    let rounds := be_val (chunk i 0 4) in
    Some (flat_map (le_fixed 8) (F_spec (N.to_nat rounds) (h_in i) (m_in i) (le_val (chunk i 196 16)) (nth 212 i 0 =? 1)), rounds)
  else None.

(* ---------------------------------------------------------------------- *)
(** * Words *)

Definition u64 (x : N) : Prop := x < 2 ^ 64.
Lemma u64_plus a b : u64 (plus a b).
Proof. now apply N.mod_lt. Qed.
Lemma u64_lxor a b : u64 a -> u64 b -> u64 (N.lxor a b).
Proof.
  unfold u64. intros Ha Hb.
  destruct (N.eq_dec (N.lxor a b) 0) as [->|E]; [easy|].
  apply N.log2_lt_pow2; [lia|].
  eapply N.le_lt_trans; [apply N.log2_lxor|].
  apply N.max_lub_lt.
  - destruct (N.eq_dec a 0) as [->|]; [easy|]. apply N.log2_lt_pow2; lia.
  - destruct (N.eq_dec b 0) as [->|]; [easy|]. apply N.log2_lt_pow2; lia.
Qed.

Lemma rotr_rot x k : u64 x -> 0 < k < 64 -> rotr x k = rot x k /\ u64 (rot x k).
Proof.
  unfold u64, rotr, rot, W64. intros Hx Hk.
  rewrite N.shiftr_div_pow2, N.shiftl_mul_pow2.
  assert (P : 2 ^ 64 = 2 ^ k * 2 ^ (64 - k)) by (rewrite <- N.pow_add_r; f_equal; lia).
  assert (Pk : 2 ^ k <> 0) by (apply N.pow_nonzero; easy).
  assert (Pj : 2 ^ (64 - k) <> 0) by (apply N.pow_nonzero; easy).
  assert (D : x / 2 ^ k < 2 ^ (64 - k)) by (apply N.div_lt_upper_bound; [easy|now rewrite <- P]).
  rewrite P at 1. rewrite N.mul_mod_distr_r by easy.
  set (q := x / 2 ^ k) in *. set (r := x mod 2 ^ k).
  assert (R : r < 2 ^ k) by now apply N.mod_lt.
  assert (LA : N.land q (r * 2 ^ (64 - k)) = 0).
  { apply N.bits_inj. intros n. rewrite N.land_spec, N.bits_0.
    destruct (N.lt_ge_cases n (64 - k)) as [L|L].
    - rewrite N.mul_pow2_bits_low by easy. apply andb_false_r.
    - rewrite (N.bits_above_log2 q); [easy|].
      destruct (N.eq_dec q 0) as [->|]; [cbn; lia|].
      eapply N.lt_le_trans; [|apply L]. apply N.log2_lt_pow2; [lia|easy]. }
  split.
  - rewrite N.add_nocarry_lxor by easy. symmetry. now apply N.lxor_lor.
  - rewrite P. nia.
Qed.

Lemma plus_assoc a b c : plus (plus a b) c = plus a (plus b c).
Proof. unfold plus. rewrite N.add_mod_idemp_l, N.add_mod_idemp_r by easy. f_equal. lia. Qed.

(** the mixing function, as the code writes it and as the RFC does *)
Definition G_code (a b c d x y : N) : N * N * N * N :=
  let a := wadd (wadd a b) x in
  let d := rotr (N.lxor d a) 32 in
  let c := wadd c d in
  let b := rotr (N.lxor b c) 24 in
  let a := wadd (wadd a b) y in
  let d := rotr (N.lxor d a) 16 in
  let c := wadd c d in
  let b := rotr (N.lxor b c) 63 in
  (a, b, c, d).

Definition u64x4 (v : N * N * N * N) : Prop := let '(a, b, c, d) := v in u64 a /\ u64 b /\ u64 c /\ u64 d.

Lemma G_code_spec a b c d x y : u64 b -> u64 d -> G_code a b c d x y = G a b c d x y /\ u64x4 (G a b c d x y).
Proof.
  intros Hb Hd. unfold G_code, G. cbv zeta. change wadd with plus. rewrite (plus_assoc a b x).
  set (a1 := plus a (plus b x)).
  assert (A1 : u64 a1) by apply u64_plus. clearbody a1.
  destruct (rotr_rot (N.lxor d a1) 32 (u64_lxor _ _ Hd A1)) as [-> D1]; [lia|].
  set (d1 := rot _ 32) in *. clearbody d1.
  set (c1 := plus c d1). assert (C1 : u64 c1) by apply u64_plus. clearbody c1.
  destruct (rotr_rot (N.lxor b c1) 24 (u64_lxor _ _ Hb C1)) as [-> B1]; [lia|].
  set (b1 := rot _ 24) in *. clearbody b1. rewrite (plus_assoc a1 b1 y).
  set (a2 := plus a1 (plus b1 y)). assert (A2 : u64 a2) by apply u64_plus. clearbody a2.
  destruct (rotr_rot (N.lxor d1 a2) 16 (u64_lxor _ _ D1 A2)) as [-> D2]; [lia|].
  set (d2 := rot _ 16) in *. clearbody d2.
  set (c2 := plus c1 d2). assert (C2 : u64 c2) by apply u64_plus. clearbody c2.
  destruct (rotr_rot (N.lxor b1 c2) 63 (u64_lxor _ _ B1 C2)) as [-> B2]; [lia|].
  cbn. auto.
Qed.

(* ---------------------------------------------------------------------- *)
(** * One round *)

Definition flat (v : matrix) : list N := let '(a, b, c, d) := v in a ++ b ++ c ++ d.
Definition wide (v : matrix) : Prop :=
  let '(a, b, c, d) := v in
  length a = 4%nat /\ length b = 4%nat /\ length c = 4%nat /\ length d = 4%nat /\
  Forall u64 a /\ Forall u64 b /\ Forall u64 c /\ Forall u64 d.

Definition put4 (v : list N) (a b c d : nat) (g : N * N * N * N) : list N :=
  let '(x, y, z, w) := g in upd (upd (upd (upd v a x) b y) c z) d w.

Lemma upd_length v i x : length (upd v i x) = length v.
Proof. revert i. induction v; intros [|i]; cbn; auto. Qed.
Lemma at0_upd_same v i x : (i < length v)%nat -> at0 (upd v i x) i = x.
Proof. unfold at0. revert i. induction v; intros [|i] H; cbn in *; try lia; auto with arith. Qed.
Lemma at0_upd_other v i j x : i <> j -> at0 (upd v i x) j = at0 v j.
Proof. unfold at0. revert i j. induction v; intros [|i] [|j] H; cbn in *; try easy; auto. Qed.

Lemma mix_G v a b c d x y :
  (a < length v)%nat -> (b < length v)%nat -> (c < length v)%nat -> (d < length v)%nat -> NoDup [a; b; c; d] ->
  mix v a b c d x y = put4 v a b c d (G_code (at0 v a) (at0 v b) (at0 v c) (at0 v d) x y).
Proof.
  intros La Lb Lc Ld ND.
  assert (a <> b /\ a <> c /\ a <> d /\ b <> c /\ b <> d /\ c <> d) as (Nab & Nac & Nad & Nbc & Nbd & Ncd).
  { rewrite !NoDup_cons_iff in ND. cbn in ND. repeat split; intros ->; tauto. }
  unfold mix, put4, G_code. cbv zeta.
  repeat first [rewrite at0_upd_same by (rewrite ?upd_length; assumption)
               |rewrite at0_upd_other by congruence].
  set (a1 := wadd (wadd (at0 v a) (at0 v b)) x).
  set (d1 := rotr _ 32). set (c1 := wadd (at0 v c) d1). set (b1 := rotr _ 24).
  set (a2 := wadd _ y). set (d2 := rotr _ 16). set (c2 := wadd c1 d2). set (b2 := rotr _ 63).
  clearbody a1 d1 c1 b1 a2 d2 c2 b2.
  apply (nth_ext _ _ 0 0); [now rewrite !upd_length|]. intros i _.
  match goal with |- nth i ?l _ = nth i ?r _ => change (at0 l i = at0 r i) end.
  destruct (Nat.eq_dec i a) as [->|]; [|destruct (Nat.eq_dec i b) as [->|]; [|destruct (Nat.eq_dec i c) as [->|]; [|destruct (Nat.eq_dec i d) as [->|]]]];
    repeat first [rewrite at0_upd_same by (rewrite ?upd_length; assumption)
                 |rewrite at0_upd_other by congruence]; reflexivity.
Qed.

Lemma sigma_ok r k : (k < 16)%nat -> nth k (nth (N.to_nat (N.of_nat r mod 10)) SIGMA []) 0%nat = sigma r k.
Proof.
  intros Hk. unfold sigma.
  replace (N.to_nat (N.of_nat r mod 10)) with (r mod 10)%nat.
  2:{ rewrite N2Nat.inj_mod, Nat2N.id by easy. easy. }
  assert (H : (r mod 10 < 10)%nat) by now apply Nat.mod_upper_bound.
  revert H. generalize (r mod 10)%nat. intros q H.
  do 10 (destruct q as [|q]; [do 16 (destruct k as [|k]; [now vm_compute|]); lia|]). lia.
Qed.

Lemma round_ok m r v : wide v -> blake_round m (N.of_nat r) (flat v) = flat (round_spec m r v) /\ wide (round_spec m r v).
Proof.
  destruct v as [[[a b] c] d]. intros (La & Lb & Lc & Ld & Ha & Hb & Hc & Hd).
  do 5 (destruct a as [|? a]; try discriminate La).
  do 5 (destruct b as [|? b]; try discriminate Lb).
  do 5 (destruct c as [|? c]; try discriminate Lc).
  do 5 (destruct d as [|? d]; try discriminate Ld).
  clear La Lb Lc Ld.
  repeat match goal with H : Forall u64 (_ :: _) |- _ => apply Forall_cons_iff in H as [? H] end.
  unfold blake_round, round_spec. cbv zeta.
  set (w := fun k => at0 m (nth k (nth (N.to_nat (N.of_nat r mod 10)) SIGMA []) 0%nat)).
  assert (EW : map (fun j => nth (sigma r j) m 0) (seq 0 16) = map w (seq 0 16)).
  { apply map_ext_in. intros k Hk. apply in_seq in Hk. unfold w, at0. now rewrite sigma_ok by lia. }
  rewrite EW.
  change (map w (seq 0 16)) with
    [w 0%nat; w 1%nat; w 2%nat; w 3%nat; w 4%nat; w 5%nat; w 6%nat; w 7%nat; w 8%nat; w 9%nat; w 10%nat; w 11%nat; w 12%nat; w 13%nat; w 14%nat; w 15%nat].
  assert (WK : forall k, at0 m (nth k (nth (N.to_nat (N.of_nat r mod 10)) SIGMA []) 0%nat) = w k) by reflexivity.
  cbv beta. rewrite !WK. clearbody w. clear EW WK.
  Ltac one :=
    match goal with |- context [mix (?h :: ?t) ?a ?b ?c ?d ?x ?y] =>
      rewrite (mix_G (h :: t) a b c d x y) by first [cbn; lia|repeat (apply NoDup_cons; [cbn; lia|]); apply NoDup_nil] end;
    cbn [at0 nth flat app];
    match goal with |- context [G_code ?a ?b ?c ?d ?x ?y] =>
      let E := fresh in let U := fresh in
      destruct (G_code_spec a b c d x y ltac:(assumption) ltac:(assumption)) as [E U];
      rewrite E; clear E;
      destruct (G a b c d x y) as [[[? ?] ?] ?] eqn:?; destruct U as (? & ? & ? & ?)
    end;
    cbn [put4 upd].
  cbn [flat app].
  one. one. one. one. one. one. one. one.
  cbn [columns firstn skipn].
  repeat match goal with H : G ?a ?b ?c ?d ?x ?y = _ |- context [G ?a ?b ?c ?d ?x ?y] => rewrite H end.
  cbn [turn firstn skipn app columns].
  unfold turn. cbn [firstn skipn app columns].
  repeat match goal with H : G ?a ?b ?c ?d ?x ?y = _ |- context [G ?a ?b ?c ?d ?x ?y] => rewrite H end.
  cbn [firstn skipn app flat wide length].
  split; [reflexivity|]. repeat split; repeat constructor; assumption.
Qed.

Lemma rounds_S m k v : rounds_spec m (S k) v = round_spec m k (rounds_spec m k v).
Proof. reflexivity. Qed.
Lemma for_loop_S {A} (f : N -> A -> A) n i v : for_loop f (S n) i v = for_loop f n (i + 1) (f i v).
Proof. reflexivity. Qed.

Lemma rounds_ok m n v r :
  wide v -> for_loop (blake_round m) n (N.of_nat r) (flat (rounds_spec m r v)) = flat (rounds_spec m (n + r) v) /\ wide (rounds_spec m r v).
Proof.
  intros W. assert (Wr : forall k, wide (rounds_spec m k v)).
  { induction k; [exact W|]. rewrite rounds_S. now apply round_ok. }
  split; [|apply Wr]. revert r. induction n as [|n IH]; intros r; [reflexivity|].
  rewrite for_loop_S, (proj1 (round_ok m r _ (Wr r))), <- rounds_S.
  replace (N.of_nat r + 1) with (N.of_nat (S r)) by lia.
  rewrite IH, Nat.add_succ_r, Nat.add_succ_l. reflexivity.
Qed.

(* ---------------------------------------------------------------------- *)
(** * The whole function *)

Lemma iv_ok : IV = iv_spec.
Proof. now vm_compute. Qed.

Lemma compress_ok h m t0 t1 f rounds :
  length h = 8%nat -> Forall u64 h -> u64 t0 -> u64 t1 ->
  blake_compress h m t0 t1 f rounds = F_spec (N.to_nat rounds) h m (t0 + 2 ^ 64 * t1) f.
Proof.
  intros Lh Hh H0 H1. unfold F_spec, blake_compress.
  replace ((t0 + 2 ^ 64 * t1) mod 2 ^ 64) with t0.
  2:{ rewrite (N.mul_comm (2 ^ 64)), N.mod_add by easy. now rewrite N.mod_small. }
  replace ((t0 + 2 ^ 64 * t1) / 2 ^ 64) with t1.
  2:{ rewrite (N.mul_comm (2 ^ 64)), N.div_add by easy. now rewrite N.div_small. }
  do 9 (destruct h as [|? h]; try discriminate Lh). clear Lh.
  set (v := (_, _, _, _) : matrix).
  match goal with |- context [for_loop _ _ 0 ?x] => assert (E : x = flat v) end.
  { unfold v. rewrite <- iv_ok. cbn [flat firstn skipn app IV zip_xor combine map upd at0 nth].
    destruct f; [easy|]. rewrite !N.lxor_0_r. easy. }
  rewrite E.
  assert (W : wide v).
  { unfold v. rewrite <- iv_ok. cbn [IV firstn skipn zip_xor combine map wide length].
    repeat match goal with H : Forall u64 (_ :: _) |- _ => apply Forall_cons_iff in H as [? H] end.
    split; [reflexivity|]. split; [reflexivity|]. split; [reflexivity|]. split; [reflexivity|].
    split; [repeat constructor; assumption|]. split; [repeat constructor; assumption|].
    split; [repeat constructor|].
    constructor; [apply u64_lxor; [reflexivity|assumption]|].
    constructor; [apply u64_lxor; [reflexivity|assumption]|].
    constructor; [apply u64_lxor; destruct f; reflexivity|].
    constructor; [apply u64_lxor; reflexivity|constructor]. }
  clearbody v. clear E.
  pose proof (proj1 (rounds_ok m (N.to_nat rounds) v 0 W)) as R. rewrite Nat.add_0_r in R.
  cbn [rounds_spec] in R. change (N.of_nat 0) with 0 in R. rewrite R.
  pose proof (proj2 (rounds_ok m 0 v (N.to_nat rounds) W)) as WR.
  destruct (rounds_spec m (N.to_nat rounds) v) as [[[a b] c] d].
  destruct WR as (La & Lb & Lc & Ld & _).
  do 5 (destruct a as [|? a]; try discriminate La).
  do 5 (destruct b as [|? b]; try discriminate Lb).
  do 5 (destruct c as [|? c]; try discriminate Lc).
  do 5 (destruct d as [|? d]; try discriminate Ld).
  easy.
Qed.

Lemma slice_chunk i off n : (off + n <= length i)%nat -> slice i off n = chunk i off n.
Proof.
  intros H. unfold slice, chunk. rewrite window.
  replace (n - (length i - off))%nat with 0%nat by lia. now rewrite app_nil_r.
Qed.

Lemma chunk_wf i off n : wf_bytes i -> wf_bytes (chunk i off n).
Proof.
  intros W. apply Forall_forall. intros x Hx. apply in_map_iff in Hx as (k & <- & _).
  destruct (Nat.lt_ge_cases (off + k) (length i)) as [L|L].
  - unfold wf_bytes in W. rewrite Forall_forall in W. now apply W, nth_In.
  - rewrite nth_overflow by lia. easy.
Qed.
Lemma chunk_u64 i off : wf_bytes i -> u64 (le_val (chunk i off 8)).
Proof.
  intros W. pose proof (le_val_bound _ (chunk_wf i off 8 W)) as H.
  change (length (chunk i off 8)) with 8%nat in H. exact H.
Qed.

(** Whatever the input and the gas: the answer is that of EIP-152, at one gas for each round; a malformed input is refused; too little gas
    is refused; nothing panics. *)
Theorem C66_blake2f i limit :
  wf_bytes i ->
  blake_exec i limit =
    match eip152 i with
    | Some (out, gas) => if over limit gas then POutOfGas else POk out gas
    | None => if (length i =? 213)%nat && over limit (be_val (chunk i 0 4)) then POutOfGas else PFail
    end.
Proof.
  intros W. unfold blake_exec, eip152.
  destruct (Nat.eqb_spec (length i) 213) as [L|L]; cbn [negb andb]; [|easy].
  unfold blake_rounds_of. rewrite slice_chunk by lia.
  set (R := be_val (chunk i 0 4)).
  assert (H : words_of i 4 8 = h_in i).
  { apply map_ext_in. intros k Hk. apply in_seq in Hk. now rewrite slice_chunk by lia. }
  assert (M : words_of i 68 16 = m_in i).
  { apply map_ext_in. intros k Hk. apply in_seq in Hk. now rewrite slice_chunk by lia. }
  assert (T : le_val (chunk i 196 16) = le_val (chunk i 196 8) + 2 ^ 64 * le_val (chunk i 204 8)).
  { replace (chunk i 196 16) with (chunk i 196 8 ++ chunk i 204 8) by reflexivity.
    rewrite le_val_app. change (length (chunk i 196 8)) with 8%nat. reflexivity. }
  rewrite H, M, !slice_chunk by lia.
  assert (C : forall f, blake_compress (h_in i) (m_in i) (le_val (chunk i 196 8)) (le_val (chunk i 204 8)) f R
               = F_spec (N.to_nat R) (h_in i) (m_in i) (le_val (chunk i 196 16)) f).
  { intros f. rewrite T. apply compress_ok.
    - easy.
    - apply Forall_forall. intros x Hx. apply in_map_iff in Hx as (k & <- & _). now apply chunk_u64.
    - now apply chunk_u64.
    - now apply chunk_u64. }
  cbv zeta. rewrite !C. clear C H M T. rewrite !flat_map_concat_map.
  destruct (nth 212 i 0) as [|[p|p|]]; cbn [N.leb N.compare N.eqb Pos.eqb]; try easy; destruct (over limit R); try easy.
Qed.
Print Assumptions C66_blake2f.

(** test vector 5 of EIP-152: "abc" *)
Definition ex_blake : bytes :=
  be_fixed 4 12 ++
  flat_map (le_fixed 8) [0x6a09e667f2bdc948; 0xbb67ae8584caa73b; 0x3c6ef372fe94f82b; 0xa54ff53a5f1d36f1;
                         0x510e527fade682d1; 0x9b05688c2b3e6c1f; 0x1f83d9abfb41bd6b; 0x5be0cd19137e2179] ++
  [97; 98; 99] ++ repeat 0 125 ++ le_fixed 16 3 ++ [1].
Example C66_ex : match blake_exec ex_blake (Some 12) with
  | POk out g => g = 12 /\ be_val out = 0xba80a53f981c4d0d6a2797b69f12f6e94c212f14685ac4b74b12bb6fdbffa2d17d87c5392aab792dc252d5de4533cc9518d38aa8dbf1925ab92386edd4009923
  | _ => False end.
Proof. now vm_compute. Qed.
Example C66_ex_gas : blake_exec ex_blake (Some 11) = POutOfGas /\ blake_exec (ex_blake ++ [0]) (Some 100) = PFail
  /\ blake_exec (firstn 212 ex_blake ++ [2]) (Some 100) = PFail.
Proof. now vm_compute. Qed.
