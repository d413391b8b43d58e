(** C52: eth_feeHistory. *)
From Verif Require Import Bytes TxModel ApiModel ApiProps FilterProps.
From stdpp Require Import base gmap list.
From Coq Require Import Lia.
From Coq.Floats Require Import SpecFloat.
#[local] Open Scope N_scope.

(* ---------------------------------------------------------------------- *)
(** * The loop *)

Definition rows (c : chain) (ps : option (list f64)) (bs : list ablock) : list (list N) :=
  match ps with Some l => map (fun b => reward_row c b l) bs | None => [] end.
Definition pairs (bs : list ablock) : list N := flat_map (fun b => [ab_base_fee b; BASE_FEE_PER_GAS]) bs.
Lemma fee_loop_spec c ps : forall left n, (N.to_nat n + left <= length (ch_blocks c))%nat ->
  fee_loop left n c ps = (pairs (take left (drop (N.to_nat n) (ch_blocks c))), map gas_ratio (take left (drop (N.to_nat n) (ch_blocks c))), rows c ps (take left (drop (N.to_nat n) (ch_blocks c)))).
Proof.
  induction left as [|left IH]; intros n Hlen; cbn [fee_loop]; [rewrite take_0; by destruct ps|].
  destruct (lookup_lt_is_Some_2 (ch_blocks c) (N.to_nat n)) as [b Hb]; [lia|].
  rewrite IH by lia. unfold block_at. rewrite Hb.
  assert (Hd : drop (N.to_nat n) (ch_blocks c) = b :: drop (N.to_nat (n + 1)) (ch_blocks c)).
  { rewrite (drop_S _ _ _ Hb). do 2 f_equal. lia. }
  rewrite Hd. cbn [take pairs map flat_map app]. f_equal. by destruct ps.
Qed.
Lemma pairs_length bs : length (pairs bs) = (2 * length bs)%nat.
Proof. induction bs as [|b bs IH]; [done|]. cbn [pairs flat_map app length]. unfold pairs in IH. rewrite IH. lia. Qed.

(* ---------------------------------------------------------------------- *)
(** * Shape *)

(** the newest block a request names *)
Definition newest_block (c : chain) (b : bid) : option N :=
  match b with BNum n => if n <=? tip c then Some n else None | BLatest | BPending => Some (tip c) | BEarliest | BHash _ => None end.
Definition fees_of (a : feeans) : option feehist := match a with FeePlain f | FeeReward f => Some f | FeeZero => None end.

(** An accepted request for [count] blocks ending at [n] is answered from the [m] blocks above [n - m]: one ratio per block, two base fees
    per block, and one row of rewards per block with an entry per percentile. *)
Theorem C52_shape_partial c count newest ps a n :
  wf_chain c -> newest_block c newest = Some n -> fee_history c count newest ps = Ok a -> 0 < count ->
  let m := N.min (N.min count 1024) n in
  let bs := filter (fun b => n - m < ab_number b /\ ab_number b <= n) (ch_blocks c) in
  N.of_nat (length bs) = m /\
  exists f, fees_of a = Some f /\ fh_oldest f = n - m + 1 /\
    fh_ratio f = map gas_ratio bs /\ length (fh_base f) = (2 * length bs)%nat /\ (forall k b, bs !! k = Some b -> fh_base f !! (2 * k)%nat = Some (ab_base_fee b)) /\
    (forall l, ps = Some l -> l <> [] -> a = FeeReward f /\ length (fh_reward f) = length bs /\ Forall (fun row => length row = length l) (fh_reward f)) /\
    (ps = None \/ ps = Some [] -> a = FeePlain f).
Proof.
  intros Hwf Hn Hr Hc m bs.
  assert (Hnt : n <= tip c). { destruct newest; cbn in Hn; try done; try (injection Hn as <-; lia). destruct (N.leb_spec n0 (tip c)); [injection Hn as <-; lia|done]. }
  pose proof (tip_len c Hwf) as Hlen.
  assert (Hbs : bs = take (span (n - m + 1) n) (drop (N.to_nat (n - m + 1)) (ch_blocks c))) by (by apply above_segment).
  assert (Hlb : N.of_nat (length bs) = m). { rewrite Hbs, take_length, drop_length. unfold span. lia. }
  split; [done|].
  set (wrap := fun f => match ps with None | Some [] => FeePlain f | Some _ => FeeReward f end).
  assert (Hinner : forall h, (match h with Some k => block_at c k | None => latest_block c end) = ch_blocks c !! N.to_nat n ->
    inner_fee_history c h (N.min count 1024) ps = Ok (FeeHist (n - m + 1) (pairs bs) (map gas_ratio bs) (rows c ps bs))).
  { intros h Hh. unfold inner_fee_history. rewrite Hh. destruct (lookup_lt_is_Some_2 (ch_blocks c) (N.to_nat n)) as [b Hb]; [lia|]. rewrite Hb.
    assert (Hbn : ab_number b = n) by (apply (proj2 Hwf) in Hb; lia). rewrite Hbn. replace (n - N.min count 1024 + 1) with (n - m + 1) by lia.
    rewrite fee_loop_spec by (unfold span; lia). by rewrite <- Hbs. }
  assert (Ha : a = wrap (FeeHist (n - m + 1) (pairs bs) (map gas_ratio bs) (rows c ps bs))).
  { unfold fee_history in Hr. destruct (negb _); [done|]. cbv zeta in Hr. unfold MAX_FEE_HISTORY in Hr.
    assert (E : (N.min count 1024 =? 0) = false) by (apply N.eqb_neq; lia). rewrite E in Hr.
    destruct newest as [k|h| | |]; cbn in Hn; try done.
    - destruct (k <=? tip c); [|done]. injection Hn as ->. rewrite Hinner in Hr by done. by injection Hr as <-.
    - injection Hn as <-. rewrite Hinner in Hr. { by injection Hr as <-. } destruct (tip_block c Hwf) as (lb & Hlb' & _ & Hat). congruence.
    - injection Hn as <-. rewrite Hinner in Hr. { by injection Hr as <-. } destruct (tip_block c Hwf) as (lb & Hlb' & _ & Hat). congruence. }
  eexists. split. { rewrite Ha. unfold wrap. by destruct ps as [[|]|]. } cbn. split; [done|]. split; [done|]. split; [apply pairs_length|]. split.
  - generalize bs. intros l. induction l as [|b0 l IH]; intros k b; [done|]. destruct k as [|k]; cbn [lookup list_lookup]; [by intros [= ->]|].
    intros Hk. apply IH in Hk. replace (S k + (S k + 0))%nat with (S (S (k + (k + 0)))) by lia. exact Hk.
  - split.
    + intros l -> Hl. unfold wrap in Ha. destruct l as [|p l]; [done|]. split; [done|]. cbn. rewrite map_length. split; [done|].
      apply Forall_fmap, Forall_forall. intros b _. unfold reward_row. cbn. by rewrite !map_length.
    + intros [->| ->]; done.
Qed.

(** Requests for zero blocks, and requests that fail. *)
Theorem C52_other c count newest ps :
  wf_chain c ->
  (count = 0 -> check_percentiles ps = true -> fee_history c count newest ps = Ok FeeZero) /\
  (0 < count -> check_percentiles ps = true -> fee_history c count newest ps = Err <-> (exists h, newest = BHash h) \/ (exists n, newest = BNum n /\ tip c < n)) /\
  fee_history c count newest ps <> Panic.
Proof.
  intros Hwf. pose proof (tip_len c Hwf) as Hlen. unfold fee_history. cbv zeta.
  assert (Hin : forall h k, inner_fee_history c h k ps <> Panic).
  { intros h k. unfold inner_fee_history. destruct (match h with Some _ => _ | None => _ end); [|done]. by destruct (fee_loop _ _ _ _) as [[? ?] ?]. }
  assert (Hat : forall k n, inner_fee_history c (Some n) k ps = Err <-> tip c < n).
  { intros k n. unfold inner_fee_history. destruct (block_at c n) as [b|] eqn:Eb; unfold block_at in Eb.
    - destruct (fee_loop _ _ _ _) as [[? ?] ?]. split; [done|]. apply lookup_lt_Some in Eb. lia.
    - split; [|done]. intros _. apply lookup_ge_None in Eb. lia. }
  destruct (tip_block c Hwf) as (lb & Hlb & _).
  assert (Hl : forall k, inner_fee_history c None k ps <> Err).
  { intros k. unfold inner_fee_history. rewrite Hlb. by destruct (fee_loop _ _ _ _) as [[? ?] ?]. }
  destruct (lookup_lt_is_Some_2 (ch_blocks c) 0%nat) as [b0 Hb0]; [lia|]. change (block_at c 0) with (ch_blocks c !! 0%nat). rewrite Hb0.
  split; [|split].
  - intros -> ->. done.
  - intros Hc ->. cbn [negb]. assert (E : (N.min count MAX_FEE_HISTORY =? 0) = false) by (apply N.eqb_neq; unfold MAX_FEE_HISTORY; lia). rewrite E.
    destruct newest as [n|h| | |].
    + specialize (Hat (N.min count MAX_FEE_HISTORY) n). specialize (Hin (Some n) (N.min count MAX_FEE_HISTORY)). destruct (inner_fee_history _ _ _ _); [| |done].
      * split; [done|]. intros [[? ?]|(n' & [= <-] & Hn)]; [done|]. by apply Hat in Hn.
      * split; [|done]. intros _. right. exists n. split; [done|]. by apply Hat.
    + split; [|done]. intros _. left. by exists h.
    + specialize (Hl (N.min count MAX_FEE_HISTORY)). specialize (Hin None (N.min count MAX_FEE_HISTORY)). destruct (inner_fee_history _ _ _ _); [|done|done]. split; [done|]. intros [[? ?]|(? & ? & _)]; done.
    + split; [done|]. intros [[? ?]|(? & ? & _)]; done.
    + specialize (Hl (N.min count MAX_FEE_HISTORY)). specialize (Hin None (N.min count MAX_FEE_HISTORY)). destruct (inner_fee_history _ _ _ _); [|done|done]. split; [done|]. intros [[? ?]|(? & ? & _)]; done.
  - destruct (negb _); [done|]. destruct (_ =? 0); [done|]. destruct newest as [n|h| | |]; try done.
    + specialize (Hin (Some n) (N.min count MAX_FEE_HISTORY)). by destruct (inner_fee_history _ _ _ _).
    + specialize (Hin None (N.min count MAX_FEE_HISTORY)). by destruct (inner_fee_history _ _ _ _).
    + specialize (Hin None (N.min count MAX_FEE_HISTORY)). by destruct (inner_fee_history _ _ _ _).
Qed.

(* ---------------------------------------------------------------------- *)
(** * Percentiles *)

(** What the check establishes: neighbours ascend strictly, and every percentile but the last lies between 0 and 100.  Without the last
    one this is the claim; JSON has no NaN, for which no comparison holds. *)
Theorem C52_percentiles_partial l :
  check_percentiles (Some l) = true <->
  forall k a b, l !! k = Some a -> l !! S k = Some b -> f_ge a b = false /\ f_lt a f0 = false /\ f_gt a f100 = false.
Proof.
  cbn [check_percentiles]. induction l as [|a l IH]; [done|]. destruct l as [|b l].
  - split; [|done]. intros _ [|k] x y; done.
  - cbn [windows_ok] in *. rewrite andb_true_iff, IH, negb_true_iff, !orb_false_iff. split.
    + intros [[[H1 H2] H3] H] [|k] x y; cbn; [by intros [= <-] [= <-]|]. apply (H k).
    + intros H. split.
      * destruct (H 0%nat a b eq_refl eq_refl) as (? & ? & ?). done.
      * intros k x y Hx Hy. apply (H (S k)); done.
Qed.
(** A list that is not accepted is an error, whatever the rest of the request. *)
Theorem C52_rejects c count newest ps : check_percentiles ps = false -> fee_history c count newest ps = Err.
Proof. intros H. unfold fee_history. by rewrite H. Qed.

(* ---------------------------------------------------------------------- *)
(** * Findings *)

Definition fee_chain : chain := Chain [ex_block 0 []; ex_block 1 [11; 12]; ex_block 2 [21]] ex_store.
Example C52_nontrivial :
  exists f, wf_chain fee_chain /\ fee_history fee_chain 2 BLatest (Some [f_of_N 25; f_of_N 75]) = Ok (FeeReward f) /\
    fh_oldest f = 1 /\ length (fh_ratio f) = 2%nat /\ fh_reward f = [[19663; 19663]; [19663; 19663]].
Proof. eexists. split; [apply ex_chain_wf|]. split; [vm_compute; reflexivity|]. split; [done|]. split; done. Qed.

(** Finding: n blocks give 2n base fees, the next block's fee after every one of them, instead of n + 1. *)
Theorem C52_base_fee_refuted :
  exists c f, wf_chain c /\ fee_history c 2 BLatest None = Ok (FeePlain f) /\ length (fh_ratio f) = 2%nat /\ length (fh_base f) = 4%nat.
Proof. exists fee_chain. eexists. split; [apply ex_chain_wf|]. split; [vm_compute; reflexivity|]. split; done. Qed.
(** Finding: the genesis block is never part of the answer: asking for three blocks of a chain of three gives two, and at height 0 the
    answer is empty and says that the oldest block is block 1, which does not exist. *)
Theorem C52_genesis_refuted :
  (exists c f, wf_chain c /\ tip c = 2 /\ fee_history c 3 BLatest None = Ok (FeePlain f) /\ length (fh_ratio f) = 2%nat) /\
  (exists c, wf_chain c /\ tip c = 0 /\ fee_history c 1 BLatest None = Ok (FeePlain (FeeHist 1 [] [] []))).
Proof.
  split.
  - exists fee_chain. eexists. split; [apply ex_chain_wf|]. split; [done|]. split; [vm_compute; reflexivity|done].
  - exists (Chain [ex_block 0 []] ex_store). split; [|done]. split; [done|]. intros [|k] b; [by intros [= <-]|done].
Qed.
(** Finding: the last percentile is not checked: [200] and [10, 200] are accepted, and so is a negative single one. *)
Theorem C52_percentile_refuted :
  exists c f1 f2 f3, wf_chain c /\ fee_history c 1 BLatest (Some [f_of_N 200]) = Ok (FeeReward f1) /\ fee_history c 1 BLatest (Some [f_of_N 10; f_of_N 200]) = Ok (FeeReward f2) /\
    fee_history c 1 BLatest (Some [SFopp (f_of_N 5)]) = Ok (FeeReward f3).
Proof. exists fee_chain. eexists _, _, _. split; [apply ex_chain_wf|]. split; [vm_compute; reflexivity|]. split; vm_compute; reflexivity. Qed.
(** Finding: the "ratio" is a percentage: a full block has 100, not 1. *)
Theorem C52_ratio_refuted : exists b, ab_gas_used b = ab_gas_limit b /\ gas_ratio b = f_of_N 100.
Proof. exists (ABlock 1 1 [] 30000000 30000000 1337). split; [done|]. vm_compute. done. Qed.
(** Finding: the rewards are picked from the transactions in block order, without sorting, and are gas used minus base fee: the 100th
    percentile is below the 50th. *)
Theorem C52_reward_refuted :
  exists c b x y, reward_row c b [f_of_N 50; f_of_N 100] = [x; y] /\ y < x.
Proof.
  exists (Chain [ex_block 0 []] (fun _ _ => [Some (AReceipt 1 0 100 90000 []); Some (AReceipt 2 0 100 21000 [])])), (ex_block 0 [1; 2]). eexists _, _.
  split; [vm_compute; reflexivity|]. done.
Qed.

Print Assumptions C52_shape_partial.
Print Assumptions C52_other.
Print Assumptions C52_percentiles_partial.
Print Assumptions C52_rejects.
Print Assumptions C52_base_fee_refuted.
Print Assumptions C52_genesis_refuted.
Print Assumptions C52_percentile_refuted.
Print Assumptions C52_ratio_refuted.
Print Assumptions C52_reward_refuted.
