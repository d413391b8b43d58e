(** What the columns hold after any history; the sorted scan behind batch lookups. *)
From Verif Require Import Bytes BytesProofs TxModel MetaModel MetaProofs StorageModel.
From stdpp Require Import base gmap list sorting.
From Coq Require Import Lia.

#[global] Arguments height_key : simpl never.
#[global] Arguments hash_key : simpl never.
#[global] Arguments rlp_key : simpl never.

Lemma height_key_inj a b : (a < 2 ^ 64)%N -> (b < 2 ^ 64)%N -> height_key a = height_key b -> a = b.
Proof. intros A B. apply be_fixed_inj; cbn; lia. Qed.
Lemma height_key_len n : length (height_key n) = 8.
Proof. apply be_fixed_length. Qed.
Lemma hash_key_inj a b x y : (a < 2 ^ 64)%N -> (b < 2 ^ 64)%N -> hash_key a x = hash_key b y -> a = b /\ x = y.
Proof.
  intros A B E. unfold hash_key in E. apply app_inj_1 in E as [E1 E2]; [|by rewrite !height_key_len].
  split; [by apply height_key_inj|done].
Qed.
Lemma height_rlp n x : length x = 32 -> height_key n <> rlp_key x.
Proof. intros L E. apply (f_equal length) in E. rewrite height_key_len in E. unfold rlp_key in E. cbn in E. lia. Qed.

(* ---------------- association lists ---------------- *)
Section Assoc.
  Context {V : Type}.
  Fixpoint lastk (l : list (bytes * V)) (k : bytes) : option V :=
    match l with
    | [] => None
    | (x, v) :: r => match lastk r k with Some w => Some w | None => if decide (x = k) then Some v else None end
    end.
  (** the last element of [l] whose key is [x] *)
  Fixpoint last_of (f : V -> bytes) (l : list V) (x : bytes) : option V :=
    match l with
    | [] => None
    | v :: r => match last_of f r x with Some w => Some w | None => if decide (f v = x) then Some v else None end
    end.

  Lemma put_many_lookup (m : gmap bytes V) l k :
    put_many m l !! k = match lastk l k with Some v => Some v | None => m !! k end.
  Proof.
    unfold put_many. revert m. induction l as [|[x v] l IH]; intros m; cbn; [done|].
    rewrite IH. destruct (lastk l k); [done|]. destruct (decide (x = k)) as [->|N].
    - by rewrite lookup_insert.
    - by rewrite lookup_insert_ne.
  Qed.
  Lemma lastk_elem l k v : lastk l k = Some v -> (k, v) ∈ l.
  Proof.
    induction l as [|[x w] l IH]; cbn; [done|]. destruct (lastk l k) as [u|] eqn:E.
    - intros [= ->]. apply elem_of_cons. right. by apply IH.
    - destruct (decide (x = k)) as [->|]; [|done]. intros [= ->]. apply elem_of_cons. by left.
  Qed.
  Lemma lastk_nodup l k v : NoDup (map fst l) -> (k, v) ∈ l -> lastk l k = Some v.
  Proof.
    induction l as [|[x w] l IH]; cbn; intros ND I; [by apply elem_of_nil in I|].
    apply NoDup_cons in ND as [N ND]. apply elem_of_cons in I as [[= -> ->]|I].
    - destruct (lastk l x) as [u|] eqn:E; [|by rewrite decide_True].
      exfalso. apply N. apply lastk_elem in E. apply elem_of_list_fmap. by exists (x, u).
    - by rewrite (IH ND I).
  Qed.
  Lemma last_of_none f l x : last_of f l x = None <-> x ∉ map f l.
  Proof.
    induction l as [|v l IH]; cbn; [split; [intros _ I; by apply elem_of_nil in I|done]|].
    rewrite not_elem_of_cons. destruct (last_of f l x) as [w|].
    - split; [done|]. intros [_ N]. by apply IH in N.
    - destruct (decide (f v = x)); split; [done|intros [? _]; congruence|intros _; split; [congruence|by apply IH]|done].
  Qed.
  Lemma last_of_elem f l x v : last_of f l x = Some v -> v ∈ l /\ f v = x.
  Proof.
    induction l as [|w l IH]; cbn; [done|]. destruct (last_of f l x) as [u|].
    - intros [= ->]. destruct IH; [done|]. split; [apply elem_of_cons; by right|done].
    - destruct (decide (f w = x)); [|done]. intros [= ->]. split; [apply elem_of_cons; by left|done].
  Qed.
  Lemma last_of_ext f g l x y : (forall v, v ∈ l -> f v = x <-> g v = y) -> last_of f l x = last_of g l y.
  Proof.
    induction l as [|v l IH]; cbn; intros E; [done|]. rewrite IH by (intros w W; apply E, elem_of_cons; by right).
    destruct (last_of g l y); [done|]. specialize (E v ltac:(apply elem_of_cons; by left)).
    destruct (decide (f v = x)), (decide (g v = y)); naive_solver.
  Qed.
End Assoc.
Lemma lastk_map {V W} (k : V -> bytes) (g : V -> W) l x :
  lastk (map (fun t => (k t, g t)) l) x = option_map g (last_of k l x).
Proof.
  induction l as [|v l IH]; cbn; [done|]. rewrite IH. destruct (last_of k l x); cbn; [done|].
  by destruct (decide (k v = x)).
Qed.

(* ---------------- key order ---------------- *)
Lemma bytes_cmp_app p q x y : length p = length q ->
  bytes_cmp (p ++ x) (q ++ y) = match bytes_cmp p q with Eq => bytes_cmp x y | c => c end.
Proof.
  revert q. induction p as [|a p IH]; intros [|b q] L; cbn in *; try done.
  destruct (a ?= b)%N; [|done|done]. apply IH. lia.
Qed.
Lemma bytes_cmp_val p q : wf_bytes p -> wf_bytes q -> length p = length q ->
  bytes_cmp p q = (be_val p ?= be_val q)%N.
Proof.
  revert q. induction p as [|a p IH]; intros [|b q] WP WQ L; cbn [bytes_cmp]; try done.
  apply List.Forall_cons_iff in WP as [A WP]. apply List.Forall_cons_iff in WQ as [B WQ].
  injection L as L. rewrite (IH q WP WQ L), !be_val_cons, L.
  pose proof (be_val_bound p WP) as BP. pose proof (be_val_bound q WQ) as BQ. rewrite L in BP.
  set (M := (256 ^ N.of_nat (length q))%N) in *. symmetry.
  destruct (N.compare_spec a b) as [->|LT|GT].
  - destruct (N.compare_spec (be_val p) (be_val q)) as [->|?|?].
    + apply N.compare_refl.
    + apply N.compare_lt_iff. lia.
    + apply N.compare_gt_iff. lia.
  - apply N.compare_lt_iff. nia.
  - apply N.compare_gt_iff. nia.
Qed.
Lemma height_cmp a b x y : (a < 2 ^ 64)%N -> (b < 2 ^ 64)%N ->
  bytes_cmp (hash_key a x) (hash_key b y) = match (a ?= b)%N with Eq => bytes_cmp x y | c => c end.
Proof.
  intros A B. unfold hash_key. rewrite bytes_cmp_app by (by rewrite !height_key_len).
  rewrite bytes_cmp_val; [|apply be_fixed_wf|apply be_fixed_wf|by rewrite !height_key_len].
  unfold height_key. rewrite !be_val_fixed; [done|cbn; lia|cbn; lia].
Qed.
Lemma prefix_cmp a b y : (a < 2 ^ 64)%N -> (b < 2 ^ 64)%N ->
  bytes_cmp (height_key a) (hash_key b y) <> Gt <-> (a <= b)%N.
Proof.
  intros A B. pose proof (height_cmp a b [] y A B) as H. unfold hash_key at 1 in H. rewrite app_nil_r in H. rewrite H.
  destruct (N.compare_spec a b) as [->|?|?].
  - split; [intros _; lia|]. intros _. destruct y; done.
  - split; [intros _; lia|done].
  - split; [done|lia].
Qed.
Lemma key_decode_hash n x : (n < 2 ^ 64)%N -> length x = 32 -> key_decode (hash_key n x) = Ok (n, x).
Proof.
  intros L X. unfold key_decode, hash_key. rewrite app_length, height_key_len.
  rewrite drop_app_alt by (by rewrite height_key_len). rewrite take_app_alt by (by rewrite height_key_len).
  rewrite X. cbn -[be_val height_key]. unfold height_key. rewrite be_val_fixed; [done|cbn; lia].
Qed.

#[global] Instance key_le_total {V} : Total (@key_le V).
Proof.
  intros a b. unfold key_le. destruct (bytes_cmp a.1 b.1) eqn:E; [left|left|right]; try done.
  apply bytes_cmp_anti in E. by rewrite E.
Qed.
#[global] Instance key_le_trans {V} : Transitive (@key_le V).
Proof.
  intros a b c A B. unfold key_le in *.
  destruct (bytes_cmp a.1 b.1) eqn:E1; [apply bytes_cmp_eq in E1; by rewrite E1| |done].
  destruct (bytes_cmp b.1 c.1) eqn:E2; [apply bytes_cmp_eq in E2; by rewrite <- E2, E1| |done].
  by rewrite (bytes_cmp_trans _ _ _ E1 E2).
Qed.

(* ---------------- the scan ---------------- *)
Lemma omap_c {A B} (f : A -> option B) x l : omap f (x :: l) = match f x with Some y => y :: omap f l | None => omap f l end.
Proof. reflexivity. Qed.
Section Scan.
  Context {V : Type}.
  Variable n : N.
  Hypothesis Hn : (n < 2 ^ 64)%N.
  Variable hs : list bytes.

  (** keys as the storage writes them *)
  Definition good_key (k : bytes) : Prop := exists a x, (a < 2 ^ 64)%N /\ length x = 32 /\ k = hash_key a x.
  (** entries of block [n] with a requested hash *)
  Definition match_one (kv : bytes * V) : option (bytes * V) :=
    match key_decode kv.1 with
    | Ok (a, x) => if (a =? n)%N && bool_decide (x ∈ hs) then Some (x, kv.2) else None
    | _ => None
    end.

  Lemma later_none l a x v : StronglySorted key_le ((hash_key a x, v) :: l) -> (n < a)%N -> (a < 2 ^ 64)%N ->
    Forall (fun kv => good_key kv.1) l -> omap match_one l = [].
  Proof using Hn.
    intros ST LT A G. apply StronglySorted_inv in ST as [_ F].
    rewrite List.Forall_forall in F. rewrite Forall_forall in G.
    assert (N : forall kv, kv ∈ l -> match_one kv = None).
    { intros [k w] I. destruct (G _ I) as (b & y & B & Y & EK). cbn in EK. subst k. specialize (F (hash_key b y, w) ltac:(by apply elem_of_list_In)).
      unfold key_le in F. cbn [fst] in F. rewrite height_cmp in F by done. unfold match_one. cbn [fst].
      rewrite key_decode_hash by done. destruct (N.eqb_spec b n) as [->|NE]; [|done].
      exfalso. destruct (N.compare_spec a n); try lia. by apply F. }
    clear -N. induction l as [|kv l IH]; cbn; [done|].
    rewrite N by (apply elem_of_cons; by left). apply IH. intros kv' I. apply N, elem_of_cons. by right.
  Qed.

  Lemma scan_spec l count found : Forall (fun kv => good_key kv.1) l -> StronglySorted key_le l ->
    (forall k v, (k, v) ∈ l -> bytes_cmp (height_key n) k <> Gt) ->
    (length (omap match_one l) <= count)%nat ->
    scan n hs count l found = Ok (found ++ omap match_one l).
  Proof using Hn.
    revert count found. induction l as [|[k v] l IH]; intros count found G ST P C.
    - destruct count; cbn; by rewrite app_nil_r.
    - apply Forall_cons in G as [(a & x & A & X & E) G]. cbn in E. subst k.
      assert (LE : (n <= a)%N) by (apply (prefix_cmp n a x Hn A), (P _ v), elem_of_cons; by left).
      assert (IHl : forall c f, (length (omap match_one l) <= c)%nat -> scan n hs c l f = Ok (f ++ omap match_one l)).
      { intros c f L. apply IH; [done|by apply StronglySorted_inv in ST as [? _]| |done]. intros k w I. apply (P _ w), elem_of_cons. by right. }
      assert (M : match_one (hash_key a x, v) = if (a =? n)%N && bool_decide (x ∈ hs) then Some (x, v) else None).
      { unfold match_one. cbn [fst snd]. by rewrite key_decode_hash. }
      rewrite omap_c in C |- *. cbn [scan].
      destruct count as [|c].
      + destruct (match_one (hash_key a x, v)) as [y|]; [cbn in C; lia|].
        assert (E : omap match_one l = []) by (apply nil_length_inv; lia).
        rewrite E. by rewrite app_nil_r.
      + rewrite key_decode_hash by done. rewrite M in C |- *.
        destruct (N.eqb_spec a n) as [->|NE]; cbn [negb andb] in *.
        * destruct (decide (x ∈ hs)) as [I|I].
          -- rewrite !bool_decide_true in * by done. rewrite IHl by (cbn [length] in C; lia). by rewrite <- app_assoc.
          -- rewrite !bool_decide_false in * by done. apply IHl. done.
        * assert (E : omap match_one l = []) by (apply (later_none l a x v); [done|lia|done|done]).
          rewrite E. by rewrite app_nil_r.
  Qed.
End Scan.

Lemma iter_from_elem {V} (m : gmap bytes V) p k v : (k, v) ∈ iter_from m p <-> m !! k = Some v /\ bytes_cmp p k <> Gt.
Proof.
  unfold iter_from. rewrite elem_of_list_filter. cbn.
  rewrite (merge_sort_Permutation key_le (map_to_list m)), elem_of_map_to_list. naive_solver.
Qed.
Lemma filter_sorted {A} (R : A -> A -> Prop) (P : A -> Prop) `{forall x, Decision (P x)} l : StronglySorted R l -> StronglySorted R (filter P l).
Proof.
  induction 1 as [|x l ST IH F]; [constructor|]. rewrite filter_cons. destruct (decide (P x)); [|done].
  constructor; [done|]. rewrite List.Forall_forall in *. intros y Y. apply F.
  apply elem_of_list_In in Y. apply elem_of_list_filter in Y as [_ Y]. by apply elem_of_list_In.
Qed.
Lemma iter_from_sorted {V} (m : gmap bytes V) p : StronglySorted key_le (iter_from m p).
Proof. apply filter_sorted. apply StronglySorted_merge_sort; apply _. Qed.
Lemma iter_from_nodup {V} (m : gmap bytes V) p : NoDup (map fst (iter_from m p)).
Proof.
  unfold iter_from. assert (ND : NoDup (map fst (merge_sort key_le (map_to_list m)))).
  { change (map fst ?l) with (fst <$> l). rewrite (merge_sort_Permutation key_le (map_to_list m)). apply NoDup_fst_map_to_list. }
  revert ND. generalize (merge_sort key_le (map_to_list m)). clear. induction l as [|[k v] l IH]; cbn [map]; intros ND; [constructor|].
  apply NoDup_cons in ND as [N ND]. rewrite filter_cons. destruct (decide _); [|by apply IH]. cbn [map]. constructor; [|by apply IH].
  intros I. apply N. apply elem_of_list_fmap in I as (y & -> & Y). apply elem_of_list_filter in Y as [_ Y].
  apply elem_of_list_fmap. by exists y.
Qed.

(** Requested hashes seen before the current position are gone. *)
Lemma take_out_spec {V} (hs : list bytes) : forall (m : gmap bytes V) i x, hs !! i = Some x ->
  take_out m hs !! i = Some (if decide (x ∈ take i hs) then None else m !! x).
Proof.
  induction hs as [|y hs IH]; intros m i x E; [done|]. destruct i as [|i]; cbn in E |- *.
  - injection E as ->. by rewrite decide_False by apply not_elem_of_nil.
  - rewrite (IH (delete y m) i x E). f_equal.
    destruct (decide (x ∈ take i hs)) as [I|I].
    + rewrite decide_True; [done|]. apply elem_of_cons. by right.
    + destruct (decide (y = x)) as [->|N].
      * rewrite lookup_delete, decide_True; [done|]. apply elem_of_cons. by left.
      * rewrite lookup_delete_ne by done. rewrite decide_False; [done|]. rewrite elem_of_cons. naive_solver.
Qed.
Lemma take_out_length {V} (hs : list bytes) (m : gmap bytes V) : length (take_out m hs) = length hs.
Proof. revert m. induction hs as [|y hs IH]; intros m; cbn; [done|]. by rewrite IH. Qed.

Lemma batch_get_spec {V} (m : gmap bytes V) (n : N) (hs : list bytes) : (n < 2 ^ 64)%N -> (forall k v, m !! k = Some v -> good_key k) ->
  Forall (fun x => length x = 32) hs ->
  exists r, batch_get m n hs = Ok r /\ length r = length hs /\
    forall i x, hs !! i = Some x -> r !! i = Some (if decide (x ∈ take i hs) then None else m !! hash_key n x).
Proof.
  intros Hn G H32. set (L := iter_from m (height_key n)).
  assert (GL : Forall (fun kv => good_key kv.1) L).
  { apply Forall_forall. intros [k v] I. apply iter_from_elem in I as [I _]. by apply (G k v). }
  assert (ML : forall x v, (x, v) ∈ omap (match_one n hs) L <-> x ∈ hs /\ m !! hash_key n x = Some v).
  { intros x v. rewrite elem_of_list_omap. split.
    - intros ([k w] & I & E). apply iter_from_elem in I as [I _]. destruct (G k w I) as (a & y & A & Y & ->).
      unfold match_one in E. cbn [fst snd] in E. rewrite key_decode_hash in E by done.
      destruct (N.eqb_spec a n) as [->|]; [|done]. cbn [andb] in E.
      destruct (decide (y ∈ hs)) as [J|J]; [rewrite bool_decide_true in E by done|by rewrite bool_decide_false in E by done]. injection E as -> ->. done.
    - intros [I E]. exists (hash_key n x, v). split.
      + apply iter_from_elem. split; [done|]. apply prefix_cmp; [done|done|lia].
      + unfold match_one. cbn [fst snd]. rewrite Forall_forall in H32. rewrite key_decode_hash; [|done|by apply H32].
        rewrite N.eqb_refl, bool_decide_true by done. done. }
  assert (ND : NoDup (map fst (omap (match_one n hs) L))).
  { pose proof (iter_from_nodup m (height_key n)) as ND. fold L in ND. clearbody L. clear ML.
    induction L as [|[k v] L IH]; [constructor|]. rewrite omap_c. apply Forall_cons in GL as [(a & y & A & Y & E) GL]. cbn in E. subst k.
    cbn [map] in ND. apply NoDup_cons in ND as [N ND]. unfold match_one at 1. cbn [fst snd]. rewrite key_decode_hash by done.
    destruct (N.eqb_spec a n) as [->|]; cbn [andb]; [|by apply IH]. destruct (bool_decide _); [|by apply IH].
    cbn [map]. constructor; [|by apply IH]. intros I. apply N. apply elem_of_list_fmap in I as ([x w] & E & I). cbn in E. subst x.
    apply elem_of_list_omap in I as ([k u] & I & E). rewrite Forall_forall in GL. destruct (GL _ I) as (b & z & B & Z & EK). cbn in EK. subst k.
    unfold match_one in E. cbn [fst snd] in E. rewrite key_decode_hash in E by done.
    destruct (N.eqb_spec b n) as [->|]; [|done]. cbn [andb] in E. destruct (bool_decide _); [|done]. injection E as -> ->.
    apply elem_of_list_fmap. by exists (hash_key n y, w). }
  assert (LEN : (length (omap (match_one n hs) L) <= length hs)%nat).
  { rewrite <- (map_length fst). apply submseteq_length. apply NoDup_submseteq; [done|].
    intros x I. apply elem_of_list_fmap in I as ([y v] & -> & I). by apply ML in I as [I _]. }
  unfold batch_get. fold L. rewrite (scan_spec n Hn hs L (length hs) []); [|done|apply iter_from_sorted| |done].
  2:{ intros k v I. by apply iter_from_elem in I as [_ I]. }
  cbn [app]. eexists. split; [done|]. split; [apply take_out_length|]. intros i x E. rewrite (take_out_spec _ _ _ _ E).
  f_equal. destruct (decide _); [done|].
  change (fold_left _ ?l ∅) with (put_many ∅ l). rewrite put_many_lookup.
  assert (IX : x ∈ hs) by (by eapply elem_of_list_lookup_2).
  destruct (lastk _ x) as [v|] eqn:LK.
  - apply lastk_elem, ML in LK as [_ LK]. done.
  - rewrite lookup_empty. destruct (m !! hash_key n x) as [v|] eqn:MX; [|done].
    rewrite (lastk_nodup _ x v ND) in LK; [done|]. by apply ML.
Qed.
