(** Lemmas about the metadata store: epoch segments, reachable stores, hardfork lists. *)
From Verif Require Import Bytes BytesProofs Rlp TxModel MetaModel.
From stdpp Require Import base gmap list.
From Coq Require Import Lia Sorted.
Local Open Scope N_scope.

(* ---------------- segments ---------------- *)
Definition seg_inc (s : list N) : Prop :=
  forall i j a b, s !! i = Some a -> s !! j = Some b -> (i < j)%nat -> a < b.

Lemma seg_last_snoc s e : seg_last (s ++ [e]) = e.
Proof. unfold seg_last. apply List.last_last. Qed.

Lemma seg_last_lookup s : s <> [] -> s !! (length s - 1)%nat = Some (seg_last s).
Proof.
  destruct s as [|x s] using rev_ind; intros H; [done|].
  rewrite seg_last_snoc, app_length. cbn. rewrite lookup_app_r by lia.
  replace (length s + 1 - 1 - length s)%nat with 0%nat by lia. done.
Qed.

Lemma seg_inc_last s i a : seg_inc s -> s !! i = Some a -> a <= seg_last s.
Proof.
  intros S L. assert (s <> []) by (intros ->; by rewrite lookup_nil in L).
  pose proof (seg_last_lookup s H) as E.
  destruct (Nat.eq_dec i (length s - 1)%nat) as [->|N].
  - rewrite L in E. injection E as ->. lia.
  - apply lookup_lt_Some in L as Li. specialize (S i (length s - 1)%nat a _ L E). lia.
Qed.

Lemma seg_inc_snoc s e : seg_inc s -> seg_last s < e -> seg_inc (s ++ [e]).
Proof.
  intros S L i j a b Hi Hj Hij.
  apply lookup_app_Some in Hj as [Hj|[Lj Hj]].
  - apply lookup_lt_Some in Hj as Lj. rewrite lookup_app_l in Hi by lia. eapply S; eauto.
  - destruct (j - length s)%nat eqn:J; [|by rewrite lookup_nil in Hj || cbn in Hj].
    cbn in Hj. injection Hj as <-.
    rewrite lookup_app_l in Hi by lia. pose proof (seg_inc_last _ _ _ S Hi). lia.
Qed.

Lemma epoch_scan_sound s k n e : epoch_scan s k n = Some e ->
  exists j a b, e = k + N.of_nat j /\ s !! j = Some a /\ s !! S j = Some b /\ a < n <= b.
Proof.
  revert k. induction s as [|s0 s IH]; intros k E; [done|].
  destruct s as [|s1 s]; [done|].
  change (epoch_scan (s0 :: s1 :: s) k n) with
    (if (s0 <? n) && (n <=? s1) then Some k else epoch_scan (s1 :: s) (k + 1) n) in E.
  destruct ((s0 <? n) && (n <=? s1)) eqn:C.
  - injection E as <-. apply andb_true_iff in C as [C1 C2].
    exists 0%nat, s0, s1. repeat split; try done; lia.
  - apply IH in E as (j & a & b & -> & A & B & H). exists (S j), a, b. repeat split; try done; lia.
Qed.

Lemma epoch_scan_none s k n j a b : epoch_scan s k n = None ->
  s !! j = Some a -> s !! S j = Some b -> a < n <= b -> False.
Proof.
  revert k j. induction s as [|s0 s IH]; intros k j E A B H; [done|].
  destruct s as [|s1 s].
  { destruct j; cbn in B; [done|]. by rewrite lookup_nil in B || done. }
  change (epoch_scan (s0 :: s1 :: s) k n) with
    (if (s0 <? n) && (n <=? s1) then Some k else epoch_scan (s1 :: s) (k + 1) n) in E.
  destruct ((s0 <? n) && (n <=? s1)) eqn:C; [done|].
  destruct j as [|j].
  - cbn in A, B. injection A as ->. injection B as ->. lia.
  - exact (IH _ _ E A B H).
Qed.

Lemma seg_window_unique s n i j a b c d : seg_inc s ->
  s !! i = Some a -> s !! S i = Some b -> a < n <= b ->
  s !! j = Some c -> s !! S j = Some d -> c < n <= d -> i = j.
Proof.
  intros S A B H C D K.
  destruct (Nat.lt_trichotomy i j) as [L|[E|L]]; [|done|].
  - destruct (Nat.eq_dec (Datatypes.S i) j) as [<-|N'].
    + rewrite B in C. injection C as ->. lia.
    + pose proof (S _ _ _ _ B C ltac:(lia)). lia.
  - destruct (Nat.eq_dec (Datatypes.S j) i) as [<-|N'].
    + rewrite D in A. injection A as ->. lia.
    + pose proof (S _ _ _ _ D A ltac:(lia)). lia.
Qed.

Lemma epoch_number_iff s n e : seg_inc s ->
  get_epoch_number s n = Some e <->
  exists a b, s !! N.to_nat e = Some a /\ s !! S (N.to_nat e) = Some b /\ a < n <= b.
Proof.
  intros S. unfold get_epoch_number. split.
  - intros E. apply epoch_scan_sound in E as (j & a & b & -> & A & B & H).
    exists a, b. replace (N.to_nat (0 + N.of_nat j)) with j by lia. done.
  - intros (a & b & A & B & H).
    destruct (epoch_scan s 0 n) as [e'|] eqn:E.
    + apply epoch_scan_sound in E as (j & a' & b' & -> & A' & B' & H').
      pose proof (seg_window_unique _ _ _ _ _ _ _ _ S A B H A' B' H'). f_equal. lia.
    + exfalso. exact (epoch_scan_none _ _ _ _ _ _ E A B H).
Qed.

(** every number above the first endpoint and not above the last is in some window *)
Lemma seg_window_exists s n a : s !! 0%nat = Some a -> a < n <= seg_last s ->
  exists j x y, s !! j = Some x /\ s !! S j = Some y /\ x < n <= y.
Proof.
  revert a. induction s as [|s0 s IH]; intros a A H; [done|].
  cbn in A. injection A as ->.
  destruct s as [|s1 s]; [unfold seg_last in H; cbn in H; lia|].
  destruct (N.le_gt_cases n s1) as [L|L].
  - exists 0%nat, a, s1. repeat split; try done; lia.
  - destruct (IH s1) as (j & x & y & X & Y & Q); [done| |].
    + split; [lia|]. unfold seg_last in *. cbn [List.last] in H. apply H.
    + exists (S j), x, y. done.
Qed.

(* ---------------- reachable stores ---------------- *)
Inductive mstep : meta -> meta -> Prop :=
| MS_append hf m md m' : mi_end (md_inner md) <= U64_MAX -> append_metadata hf m md = Ok m' -> mstep m m'
| MS_count m n a m' : update_propose_count m n a = Ok m' -> mstep m m'
| MS_config hf m c : mstep m (update_consensus_config hf m c)
| MS_ckb m i : mstep m (set_ckb_related_info m i)
| MS_hardfork m b f : mstep m (set_hardfork_info m b f).

Inductive mreach : meta -> Prop :=
| MR_0 : mreach meta0
| MR_S m m' : mreach m -> mstep m m' -> mreach m'.

Record minv (m : meta) : Prop := {
  mi_zero : mt_segment m !! 0%nat = Some 0;
  mi_inc : seg_inc (mt_segment m);
  mi_max : Forall (fun e => e <= U64_MAX) (mt_segment m);
  mi_dom : forall e, is_Some (mt_inner m !! e) <-> (S (N.to_nat e) < length (mt_segment m))%nat;
  mi_ent : forall e i, mt_inner m !! e = Some i ->
    mi_epoch i = e /\ mt_segment m !! S (N.to_nat e) = Some (mi_end i) /\
    (e <> 0 -> exists x, mt_segment m !! N.to_nat e = Some x /\ mi_start i = x + 1);
  mi_cfg : (1 < length (mt_segment m))%nat -> mt_config m <> None }.

Lemma minv0 : minv meta0.
Proof.
  split; cbn.
  - done.
  - intros i j a b Hi Hj L. destruct j as [|j]; [lia|]. cbn in Hj. by rewrite lookup_nil in Hj || done.
  - repeat constructor. vm_compute. discriminate.
  - intros e. rewrite lookup_empty. split; [intros [? ?]; done|lia].
  - intros e i. rewrite lookup_empty. done.
  - lia.
Qed.

Lemma append_inv hf m md m' : append_metadata hf m md = Ok m' ->
  let i := md_inner md in
  (if seg_empty (mt_segment m) then mi_epoch i = 0 else mi_epoch i = latest_epoch (mt_segment m) + 1) /\
  (mi_epoch i <> 0 -> mi_start i = seg_last (mt_segment m) + 1) /\
  seg_last (mt_segment m) < mi_end i /\ seg_last (mt_segment m) <> U64_MAX /\
  m' = Meta_ (mt_segment m ++ [mi_end i])
         (<[mi_epoch i := Inner_ (mi_start i) (mi_end i) (mi_epoch i) (mi_verifiers i)
              (map (fun a => (a, 0)) (btree_keys (map v_address (mi_verifiers i))))]> (mt_inner m))
         (Some (encode_config hf (md_config md))) (mt_ckb m) (mt_hardfork m).
Proof.
  unfold append_metadata. cbn zeta. intros E.
  destruct (seg_empty (mt_segment m)) eqn:SE; cbn [andb orb negb] in E.
  all: match type of E with context [if ?c then Err else _] => destruct c eqn:C1 end; [done|].
  all: destruct (seg_last (mt_segment m) =? U64_MAX) eqn:C2; [done|].
  all: match type of E with context [if ?c then Err else _] => destruct c eqn:C3 end; [done|].
  all: unfold append_endpoint in E.
  all: destruct (mi_end (md_inner md) <=? seg_last (mt_segment m)) eqn:C4; [done|].
  all: injection E as <-.
  all: apply N.eqb_neq in C2; apply N.leb_gt in C4.
  all: repeat split; try done.
  all: rewrite ?orb_false_r in C1; try (apply negb_false_iff, N.eqb_eq in C1; exact C1).
  all: intros NZ; apply andb_false_iff in C3 as [C3|C3]; apply negb_false_iff, N.eqb_eq in C3; lia.
Qed.

Lemma minv_length m : minv m -> (1 <= length (mt_segment m))%nat.
Proof. intros I. pose proof (mi_zero _ I) as Z. apply lookup_lt_Some in Z. lia. Qed.

(** the epoch an accepted append must carry *)
Lemma append_epoch hf m md m' : minv m -> append_metadata hf m md = Ok m' ->
  N.to_nat (mi_epoch (md_inner md)) = (length (mt_segment m) - 1)%nat.
Proof.
  intros I E. apply append_inv in E as (E & _). pose proof (minv_length _ I).
  unfold seg_empty, latest_epoch in E. destruct (Nat.eqb_spec (length (mt_segment m)) 1); lia.
Qed.

Lemma minv_append hf m md m' : minv m -> mi_end (md_inner md) <= U64_MAX ->
  append_metadata hf m md = Ok m' -> minv m'.
Proof.
  intros I M E. pose proof (append_epoch _ _ _ _ I E) as EP. pose proof (minv_length _ I) as LN.
  apply append_inv in E as (_ & ST & LT & _ & ->). destruct I as [Z INC MX DOM ENT CFG].
  set (i := md_inner md) in *.
  assert (NE : mt_segment m <> []) by (intros X; rewrite X in LN; cbn in LN; lia).
  split; cbn [mt_segment mt_inner mt_config].
  - by apply lookup_app_l_Some.
  - by apply seg_inc_snoc.
  - apply Forall_app. split; [done|]. by repeat constructor.
  - intros e. rewrite app_length. cbn [length].
    destruct (decide (mi_epoch i = e)) as [<-|N].
    + rewrite lookup_insert. split; [|by eauto]. intros _. lia.
    + rewrite lookup_insert_ne by done. rewrite DOM.
      assert (N.to_nat (mi_epoch i) <> N.to_nat e) by lia. lia.
  - intros e x. destruct (decide (mi_epoch i = e)) as [<-|N].
    + rewrite lookup_insert. intros [= <-]. cbn. split; [done|]. rewrite EP. split.
      * rewrite lookup_app_r by lia. replace (S (length (mt_segment m) - 1) - length (mt_segment m))%nat with 0%nat by lia. done.
      * intros NZ. exists (seg_last (mt_segment m)). split; [|by apply ST].
        rewrite lookup_app_l by lia. by apply seg_last_lookup.
    + rewrite lookup_insert_ne by done. intros L. apply ENT in L as (A & B & C).
      split; [done|]. split; [by apply lookup_app_l_Some|].
      intros NZ. destruct (C NZ) as (y & Y1 & Y2). exists y. split; [by apply lookup_app_l_Some|done].
  - done.
Qed.

Lemma count_inv m n a m' : update_propose_count m n a = Ok m' ->
  exists e i c, get_epoch_number (mt_segment m) n = Some e /\ mt_inner m !! e = Some i /\
    bump (mi_counter i) a = Ok c /\
    m' = Meta_ (mt_segment m)
           (<[mi_epoch i := Inner_ (mi_start i) (mi_end i) (mi_epoch i) (mi_verifiers i) c]> (mt_inner m))
           (mt_config m) (mt_ckb m) (mt_hardfork m).
Proof.
  unfold update_propose_count. destruct (get_epoch_number _ _) as [e|] eqn:E; [|done].
  unfold get_metadata_inner. destruct (mt_inner m !! e) as [i|] eqn:L; [|done].
  destruct (bump _ _) as [c| |] eqn:B; [|done|done].
  intros [= <-]. exists e, i, c. done.
Qed.

Lemma minv_step m m' : minv m -> mstep m m' -> minv m'.
Proof.
  intros I St. destruct St.
  - by eapply minv_append.
  - apply count_inv in H as (e & i & c & _ & L & _ & ->).
    destruct I as [Z INC MX DOM ENT CFG]. pose proof (ENT _ _ L) as (A & B & C).
    split; cbn [mt_segment mt_inner mt_config]; try done.
    + intros e'. rewrite A. destruct (decide (e = e')) as [<-|N].
      * rewrite lookup_insert, <- DOM, L. split; eauto.
      * by rewrite lookup_insert_ne.
    + intros e' i'. rewrite A. destruct (decide (e = e')) as [<-|N].
      * rewrite lookup_insert. intros [= <-]. cbn. done.
      * rewrite lookup_insert_ne by done. apply ENT.
  - destruct I. split; cbn; done.
  - destruct I. split; cbn; done.
  - destruct I. split; cbn; done.
Qed.

Lemma mreach_inv m : mreach m -> minv m.
Proof. induction 1; [apply minv0|by eapply minv_step]. Qed.

(** the epoch that holds a block number *)
Lemma epoch_of m n e i : minv m -> mt_inner m !! e = Some i ->
  get_epoch_number (mt_segment m) n = Some e <->
  ((if e =? 0 then 1 <= n else mi_start i <= n) /\ n <= mi_end i).
Proof.
  intros I L. rewrite epoch_number_iff by apply I. pose proof (mi_ent _ I _ _ L) as (A & B & C).
  split.
  - intros (a & b & X & Y & H). rewrite B in Y. injection Y as <-.
    destruct (N.eqb_spec e 0) as [->|NZ].
    + pose proof (mi_zero _ I) as Z. change (N.to_nat 0) with 0%nat in X. rewrite Z in X. injection X as <-. lia.
    + destruct (C NZ) as (y & Y1 & Y2). rewrite Y1 in X. injection X as ->. lia.
  - intros [H1 H2]. destruct (N.eqb_spec e 0) as [->|NZ].
    + exists 0, (mi_end i). split; [apply I|]. split; [done|lia].
    + destruct (C NZ) as (y & Y1 & Y2). exists y, (mi_end i). repeat split; try done; lia.
Qed.

Lemma epoch_some_inner m n e : minv m -> get_epoch_number (mt_segment m) n = Some e -> is_Some (mt_inner m !! e).
Proof.
  intros I E. apply epoch_number_iff in E as (a & b & A & B & _); [|apply I].
  apply (mi_dom _ I). by apply lookup_lt_Some in B.
Qed.

Lemma inner_config m e i : minv m -> mt_inner m !! e = Some i -> exists c, get_consensus_config m = Ok c.
Proof.
  intros I L. assert (is_Some (mt_inner m !! e)) as D by eauto. apply (mi_dom _ I) in D.
  unfold get_consensus_config. destruct (mt_config m) eqn:C; [eauto|].
  exfalso. eapply (mi_cfg _ I); [lia|done].
Qed.

(* ---------------- segment bytes ---------------- *)
Lemma be_fixed_len8 n : length (be_fixed 8 n) = 8%nat.
Proof. apply be_fixed_length. Qed.

Lemma chunks8_concat s fuel : Forall (fun e => e <= U64_MAX) s -> (length (seg_bytes s) <= fuel)%nat ->
  chunks8 fuel (seg_bytes s) = s.
Proof.
  revert fuel. induction s as [|x s IH]; intros fuel F L.
  - cbn. destruct fuel; done.
  - apply Forall_cons in F as [Fx F].
    assert (E : seg_bytes (x :: s) = be_fixed 8 x ++ seg_bytes s) by done.
    rewrite E in *. rewrite app_length, be_fixed_len8 in L.
    destruct fuel as [|fuel]; [lia|].
    assert (exists y r, be_fixed 8 x = y :: r) as (y & r & Q).
    { pose proof (be_fixed_len8 x) as B. destruct (be_fixed 8 x); [cbn in B; lia|eauto]. }
    assert (E2 : chunks8 (S fuel) (be_fixed 8 x ++ seg_bytes s) =
                 be_val (firstn 8 (be_fixed 8 x ++ seg_bytes s)) :: chunks8 fuel (skipn 8 (be_fixed 8 x ++ seg_bytes s))).
    { rewrite Q. done. }
    rewrite E2.
    rewrite firstn_app, skipn_app, be_fixed_len8. rewrite Nat.sub_diag.
    rewrite firstn_all2 by (rewrite be_fixed_len8; lia).
    rewrite skipn_all2 by (rewrite be_fixed_len8; lia).
    cbn [firstn skipn]. rewrite app_nil_r. cbn [app].
    rewrite IH by (done || lia). f_equal.
    apply be_val_fixed. unfold U64_MAX in Fx.
    change (256 ^ N.of_nat 8) with 18446744073709551616. lia.
Qed.

(* ---------------- BTreeMap keys ---------------- *)
Lemma bytes_cmp_eq a b : bytes_cmp a b = Eq <-> a = b.
Proof.
  revert b. induction a as [|x a IH]; intros [|y b]; cbn; try done.
  destruct (N.compare_spec x y) as [->|L|L].
  - rewrite IH. split; [by intros ->|by intros [= ->]].
  - split; [done|]. intros [= -> _]. lia.
  - split; [done|]. intros [= -> _]. lia.
Qed.
Lemma bytes_cmp_trans a b c : bytes_cmp a b = Lt -> bytes_cmp b c = Lt -> bytes_cmp a c = Lt.
Proof.
  revert b c. induction a as [|x a IH]; intros [|y b] [|z c]; cbn; try done.
  intros A B. destruct (N.compare_spec x y) as [E|L|L]; [|clear A|done].
  - subst y. destruct (N.compare_spec x z) as [E|L|L]; try done. by eapply IH.
  - destruct (N.compare_spec y z) as [E|L2|L2]; [subst z| |done].
    + by rewrite (proj2 (N.compare_lt_iff x y)) by lia.
    + by rewrite (proj2 (N.compare_lt_iff x z)) by lia.
Qed.
Lemma bytes_cmp_anti a b : bytes_cmp a b = Gt -> bytes_cmp b a = Lt.
Proof.
  revert b. induction a as [|x a IH]; intros [|y b]; cbn; try done.
  destruct (N.compare_spec x y) as [->|L|L]; try done; intros A.
  - rewrite N.compare_refl. by apply IH.
  - by rewrite (proj2 (N.compare_lt_iff y x)) by lia.
Qed.

Definition blt (a b : bytes) : Prop := bytes_cmp a b = Lt.
Lemma bt_insert_in k l x : In x (bt_insert k l) <-> x = k \/ In x l.
Proof.
  induction l as [|y l IH]; cbn; [naive_solver|].
  destruct (bytes_cmp k y) eqn:C; cbn.
  - apply bytes_cmp_eq in C. subst. naive_solver.
  - naive_solver.
  - rewrite IH. naive_solver.
Qed.
Lemma bt_insert_sorted k l : StronglySorted blt l -> StronglySorted blt (bt_insert k l).
Proof.
  induction 1 as [|y l S IH F]; cbn; [repeat constructor|].
  destruct (bytes_cmp k y) eqn:C.
  - by constructor.
  - constructor; [by constructor|]. constructor; [done|].
    eapply Forall_impl; [exact F|]. intros z. by apply bytes_cmp_trans.
  - constructor; [done|]. apply List.Forall_forall. intros z I. apply bt_insert_in in I as [->|I].
    + by apply bytes_cmp_anti.
    + rewrite List.Forall_forall in F. by apply F.
Qed.
Lemma blt_irrefl a : ~ blt a a.
Proof. unfold blt. pose proof (proj2 (bytes_cmp_eq a a) eq_refl) as ->. done. Qed.
Lemma sorted_nodup l : StronglySorted blt l -> List.NoDup l.
Proof.
  induction 1 as [|y l S IH F]; constructor; [|done].
  intros I. rewrite List.Forall_forall in F. by apply F, blt_irrefl in I.
Qed.
Lemma btree_keys_spec l : List.NoDup (btree_keys l) /\ forall x, In x (btree_keys l) <-> In x l.
Proof.
  unfold btree_keys.
  assert (G : forall l acc, StronglySorted blt acc ->
    StronglySorted blt (fold_left (fun a k => bt_insert k a) l acc) /\
    forall x, In x (fold_left (fun a k => bt_insert k a) l acc) <-> In x l \/ In x acc).
  { clear. induction l as [|k l IH]; cbn; intros acc S; [naive_solver|].
    destruct (IH (bt_insert k acc) (bt_insert_sorted _ _ S)) as [A B]. split; [done|].
    intros x. rewrite B, bt_insert_in. naive_solver. }
  destruct (G l [] (SSorted_nil _)) as [A B]. split; [by apply sorted_nodup|].
  intros x. rewrite B. cbn. tauto.
Qed.
