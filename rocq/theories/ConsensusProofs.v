(** Lemmas for the consensus properties: voting weights and the block store of a node. *)
From Verif Require Import Bytes BytesProofs Rlp TxModel WalModel StorageModel StorageProofs StorageProps BlockModel ConsensusModel.
From stdpp Require Import base gmap list.
From Coq Require Import Lia.
Local Open Scope N_scope.

(* ------------------------------------------------------------------------ *)
(** * Weights *)
Fixpoint sumw (l : list validator) : N := match l with [] => 0 | v :: r => v_weight v + sumw r end.
(** weight of the validators selected by [p] *)
Fixpoint wsum (p : validator -> bool) (l : list validator) : N :=
  match l with [] => 0 | v :: r => (if p v then v_weight v else 0) + wsum p r end.

Lemma wsum_le p l : wsum p l <= sumw l.
Proof. induction l as [|v l IH]; cbn; [lia|]. destruct (p v); lia. Qed.
Lemma wsum_mono p q l : (forall v, v ∈ l -> p v = true -> q v = true) -> wsum p l <= wsum q l.
Proof.
  induction l as [|v l IH]; intros E; cbn; [lia|]. assert (wsum p l <= wsum q l) by (apply IH; intros w W; apply E, elem_of_cons; by right).
  destruct (p v) eqn:PV; [rewrite (E v ltac:(apply elem_of_cons; by left) PV); lia|]. destruct (q v); lia.
Qed.
Lemma wsum_ext p q l : (forall v, v ∈ l -> p v = q v) -> wsum p l = wsum q l.
Proof.
  intros E. apply N.le_antisymm; apply wsum_mono; intros v V; rewrite (E v V); done.
Qed.
Lemma wsum_split p q l : wsum p l + wsum q l = wsum (fun v => p v || q v) l + wsum (fun v => p v && q v) l.
Proof. induction l as [|v l IH]; cbn; [done|]. destruct (p v), (q v); cbn; lia. Qed.
Lemma wsum_pos p l : 0 < wsum p l -> exists v, v ∈ l /\ p v = true.
Proof.
  induction l as [|v l IH]; cbn; [lia|]. destruct (p v) eqn:PV.
  - intros _. exists v. split; [apply elem_of_cons; by left|done].
  - intros H. destruct IH as (w & W & PW); [lia|]. exists w. split; [apply elem_of_cons; by right|done].
Qed.

Lemma weight_map_lookup l x : NoDup (map v_pub l) ->
  weight_map l !! x = match find (fun v => bool_decide (v_pub v = x)) l with Some v => Some (v_weight v) | None => None end.
Proof.
  unfold weight_map.
  assert (G : forall l (m : gmap bytes N), NoDup (map v_pub l) -> fold_left (fun m v => <[v_pub v := v_weight v]> m) l m !! x =
     match find (fun v => bool_decide (v_pub v = x)) l with Some v => Some (v_weight v) | None => m !! x end).
  { clear l. intros l. induction l as [|v l IH]; intros m ND; cbn [fold_left find]; [done|].
    cbn in ND. apply NoDup_cons in ND as [N ND]. rewrite IH by done. case_bool_decide as E.
    - destruct (find _ l) as [w|] eqn:F.
      + apply find_some in F as [F1 F2]. apply bool_decide_eq_true in F2. exfalso. apply N. rewrite E, <- F2.
        apply elem_of_list_fmap. exists w. split; [done|]. by apply elem_of_list_In.
      + subst x. by rewrite lookup_insert.
    - destruct (find _ l); [done|]. by rewrite lookup_insert_ne. }
  intros ND. rewrite G by done. by rewrite lookup_empty.
Qed.
Lemma weight_map_snoc l v : weight_map (l ++ [v]) = <[v_pub v := v_weight v]> (weight_map l).
Proof. unfold weight_map. by rewrite fold_left_app. Qed.
Lemma weight_map_dom l x : is_Some (weight_map l !! x) -> x ∈ map v_pub l.
Proof.
  induction l as [|v l IH] using rev_ind; [cbn; rewrite lookup_empty; by intros [? ?]|].
  rewrite weight_map_snoc, map_app, elem_of_app. cbn. rewrite lookup_insert_is_Some'. rewrite elem_of_list_singleton. intros [E|E]; [by right|left; auto].
Qed.
Lemma total_weight_sum l : NoDup (map v_pub l) -> total_weight (weight_map l) = sumw l.
Proof.
  induction l as [|v l IH] using rev_ind; intros ND; [done|].
  rewrite map_app in ND. cbn in ND. apply NoDup_app in ND as (ND & D & _).
  rewrite weight_map_snoc. unfold total_weight. rewrite map_fold_insert_L.
  - fold (total_weight (weight_map l)). rewrite IH by done. clear. induction l as [|w l IH]; cbn; lia.
  - intros. lia.
  - destruct (weight_map l !! v_pub v) eqn:E; [|done]. exfalso. apply (D (v_pub v)); [|apply elem_of_list_singleton; done].
    apply weight_map_dom. by exists n.
Qed.

Lemma voters_weight_sum l voters : NoDup (map v_pub l) -> NoDup voters -> forall acc r,
  voters_weight (weight_map l) voters acc = Ok r ->
  (forall x, x ∈ voters -> x ∈ map v_pub l) /\ r = acc + wsum (fun v => bool_decide (v_pub v ∈ voters)) l.
Proof.
  intros ND. induction voters as [|x voters IH]; intros NV acc r; cbn [voters_weight].
  - intros [= <-]. split; [intros x X; by apply elem_of_nil in X|].
    assert (E : wsum (fun v => bool_decide (v_pub v ∈ [])) l = 0).
    { rewrite (wsum_ext _ (fun _ => false)); [|intros v _; apply bool_decide_eq_false; apply not_elem_of_nil].
      clear. induction l; cbn; lia. }
    rewrite E. lia.
  - apply NoDup_cons in NV as [NX NV]. destruct (weight_map l !! x) as [w|] eqn:W; [|done].
    destruct (acc + w <? U64); [|done]. intros H. destruct (IH NV _ _ H) as [IN ->]. split.
    + intros y Y. apply elem_of_cons in Y as [->|Y]; [|by apply IN]. apply weight_map_dom. by exists w.
    + rewrite (weight_map_lookup l x ND) in W.
      assert (E : wsum (fun v => bool_decide (v_pub v ∈ x :: voters)) l = w + wsum (fun v => bool_decide (v_pub v ∈ voters)) l).
      { clear IH IN H acc. induction l as [|v l IH]; cbn in W |- *; [done|].
        cbn in ND. apply NoDup_cons in ND as [N ND]. case_bool_decide as E.
        - injection W as <-. subst x. rewrite (bool_decide_true (_ ∈ _ :: _)) by (apply elem_of_cons; by left).
          rewrite (bool_decide_false (v_pub v ∈ voters)) by done.
          rewrite (wsum_ext (fun v0 => bool_decide (v_pub v0 ∈ v_pub v :: voters)) (fun v0 => bool_decide (v_pub v0 ∈ voters))); [lia|].
          intros u U. apply bool_decide_ext. rewrite elem_of_cons. split; [intros [F|F]; [|done]|by right].
          exfalso. apply N. rewrite <- F. apply elem_of_list_fmap. by exists u.
        - rewrite (IH ND W). assert (EE : bool_decide (v_pub v ∈ x :: voters) = bool_decide (v_pub v ∈ voters)).
          { apply bool_decide_ext. rewrite elem_of_cons. split; [intros [F|F]; done|by right]. }
          rewrite EE. lia. }
      rewrite E. lia.
Qed.

(** acceptance by weight *)
Lemma verify_weight_ok l voters : NoDup (map v_pub l) -> NoDup voters -> verify_proof_weight (weight_map l) voters = Ok () ->
  (forall x, x ∈ voters -> x ∈ map v_pub l) /\ 2 * sumw l < 3 * wsum (fun v => bool_decide (v_pub v ∈ voters)) l.
Proof.
  intros ND NV. unfold verify_proof_weight. rewrite (total_weight_sum l ND). destruct (U64 <=? sumw l); [done|].
  destruct (voters_weight _ _ _) as [acc| |] eqn:E; [|done|done]. destruct (_ || _); [done|].
  destruct (3 * acc <=? 2 * sumw l) eqn:C; [done|]. intros _. apply N.leb_gt in C.
  destruct (voters_weight_sum l voters ND NV 0 acc E) as [IN ->]. split; [done|]. lia.
Qed.
(** and when it is granted *)
Lemma voters_weight_ok l voters : NoDup (map v_pub l) -> NoDup voters -> forall acc, (forall x, x ∈ voters -> x ∈ map v_pub l) ->
  acc + wsum (fun v => bool_decide (v_pub v ∈ voters)) l < U64 ->
  exists r, voters_weight (weight_map l) voters acc = Ok r.
Proof.
  intros ND. induction voters as [|x voters IH]; intros NV acc IN B; cbn [voters_weight]; [by eexists|].
  apply NoDup_cons in NV as [NX NV].
  assert (X : x ∈ map v_pub l) by (apply IN, elem_of_cons; by left).
  rewrite (weight_map_lookup l x ND). destruct (find _ l) as [v|] eqn:F.
  2:{ exfalso. apply elem_of_list_fmap in X as (v & -> & V). apply elem_of_list_In in V.
      pose proof (find_none _ _ F v V) as FF. cbn in FF. by rewrite bool_decide_true in FF. }
  apply find_some in F as [F1 F2]. apply bool_decide_eq_true in F2. apply elem_of_list_In in F1.
  assert (W : wsum (fun u => bool_decide (v_pub u ∈ x :: voters)) l = v_weight v + wsum (fun u => bool_decide (v_pub u ∈ voters)) l).
  { clear IH IN B X acc. induction l as [|u l IH]; [by apply elem_of_nil in F1|]. cbn in ND |- *. apply NoDup_cons in ND as [N ND].
    apply elem_of_cons in F1 as [->|F1].
    - rewrite bool_decide_true by (apply elem_of_cons; by left). rewrite (bool_decide_false (v_pub u ∈ voters)) by (by rewrite F2).
      rewrite (wsum_ext (fun v0 => bool_decide (v_pub v0 ∈ x :: voters)) (fun v0 => bool_decide (v_pub v0 ∈ voters))); [lia|].
      intros w WI. apply bool_decide_ext. rewrite elem_of_cons. split; [intros [E|E]; [|done]|by right].
      exfalso. apply N. rewrite F2, <- E. apply elem_of_list_fmap. by exists w.
    - rewrite IH by done. assert (NE : v_pub u <> x).
      { intros E. apply N. rewrite E, <- F2. apply elem_of_list_fmap. by exists v. }
      assert (EE : bool_decide (v_pub u ∈ x :: voters) = bool_decide (v_pub u ∈ voters)).
      { apply bool_decide_ext. rewrite elem_of_cons. split; [intros [E|E]; done|by right]. }
      rewrite EE. lia. }
  assert (L : acc + v_weight v <? U64 = true) by (apply N.ltb_lt; lia). rewrite L.
  apply IH; [done|intros y Y; apply IN, elem_of_cons; by right|lia].
Qed.
Lemma verify_weight_accepts l voters : NoDup (map v_pub l) -> NoDup voters -> (forall x, x ∈ voters -> x ∈ map v_pub l) ->
  3 * sumw l < U64 -> 2 * sumw l < 3 * wsum (fun v => bool_decide (v_pub v ∈ voters)) l -> verify_proof_weight (weight_map l) voters = Ok ().
Proof.
  intros ND NV IN B Q. unfold verify_proof_weight. rewrite (total_weight_sum l ND).
  pose proof (wsum_le (fun v => bool_decide (v_pub v ∈ voters)) l) as LE.
  assert (E1 : U64 <=? sumw l = false) by (apply N.leb_gt; lia). rewrite E1.
  destruct (voters_weight_ok l voters ND NV 0 IN) as [r E]; [lia|]. rewrite E.
  destruct (voters_weight_sum l voters ND NV 0 r E) as [_ ->].
  assert (E2 : (U64 <=? 3 * (0 + wsum (fun v => bool_decide (v_pub v ∈ voters)) l)) || (U64 <=? 2 * sumw l) = false).
  { apply orb_false_iff. split; apply N.leb_gt; lia. }
  rewrite E2. assert (E3 : 3 * (0 + wsum (fun v => bool_decide (v_pub v ∈ voters)) l) <=? 2 * sumw l = false) by (apply N.leb_gt; lia).
  by rewrite E3.
Qed.

(* ------------------------------------------------------------------------ *)
(** * The block store of a node *)
Section Store.
  Variable I : iface.
  Notation num b := (StorageModel.h_number I (StorageModel.b_header I b)).

  (** block caches agree with the history as long as no write replaces a block; cached heights are 64-bit *)
  Definition bfits (h : list (sevent I)) (s : sstate I) : Prop :=
    (forall n b, c_blocks I (s_cache I s) !! n = Some b -> block_at I h n = Some b /\ n < 2 ^ 64) /\
    (forall x n, c_nums I (s_cache I s) !! x = Some n -> n < 2 ^ 64).
  Fixpoint bstable (h : list (sevent I)) : Prop :=
    match h with [] => True | e :: r => (forall n b, block_at I r n = Some b -> block_at I (e :: r) n = Some b) /\ bstable r end.

  Lemma get_block_bfits h s n : refines I h (s_db I s) -> bfits h s -> n < 2 ^ 64 ->
    (get_block I s n).2 = Ok (block_at I h n) /\ bfits h (get_block I s n).1.
  Proof using.
    intros R F Hn. unfold get_block. destruct (c_blocks I (s_cache I s) !! n) as [b|] eqn:C.
    - split; [|done]. cbn. apply (proj1 F) in C as [C _]. by rewrite C.
    - rewrite (read_block_at I h s R n Hn). destruct (block_at I h n) as [b|] eqn:B; [|done]. split; [done|].
      split; [|apply F]. intros m c. cbn. destruct (decide (n = m)) as [<-|N].
      + rewrite lookup_insert. by intros [= <-].
      + rewrite lookup_insert_ne by done. apply F.
  Qed.
  Lemma get_number_bfits h s x : refines I h (s_db I s) -> bfits h s ->
    bfits h (get_number I s x).1 /\ (forall n, (get_number I s x).2 = Some n -> n < 2 ^ 64).
  Proof using.
    intros R F. unfold get_number. destruct (c_nums _ _ !! x) as [n|] eqn:C.
    - split; [done|]. cbn. intros m [= <-]. by apply (proj2 F) in C.
    - rewrite (rf_num _ _ _ R). destruct (number_at I h x) as [n|] eqn:B; [|done]. pose proof (rf_nums _ _ _ R _ _ B) as L. split.
      + split; [apply F|]. intros y m. cbn. destruct (decide (x = y)) as [<-|N]; [rewrite lookup_insert; by intros [= <-]|].
        rewrite lookup_insert_ne by done. apply F.
      + cbn. by intros m [= <-].
  Qed.
  Lemma get_code_fields (s : sstate I) x : c_blocks I (s_cache I (get_code_by_hash I s x).1) = c_blocks I (s_cache I s) /\
    c_nums I (s_cache I (get_code_by_hash I s x).1) = c_nums I (s_cache I s).
  Proof using. unfold get_code_by_hash. destruct (c_codes _ _ !! x); [done|]. by destruct (d_code _ _ !! _). Qed.
  Lemma srun_bfits h : Forall (wf_event I) h -> bstable h -> bfits h (srun I h).
  Proof using.
    induction h as [|e h IH]; intros W ST.
    { split; intros n b; cbn; by rewrite lookup_empty. }
    apply Forall_cons in W as [We W]. destruct ST as [K ST]. specialize (IH W ST).
    pose proof (srun_refines I h W) as R. cbn [srun]. generalize dependent (srun I h). intros s F R.
    assert (G : bfits h (sstep I s e) -> bfits (e :: h) (sstep I s e)).
    { intros [B B2]. split; [|done]. intros n b C. apply B in C as [C L]. split; [by apply K|done]. }
    apply G. clear G K.
    assert (C : forall s', c_blocks I (s_cache I s') = c_blocks I (s_cache I s) -> c_nums I (s_cache I s') = c_nums I (s_cache I s) -> bfits h s').
    { intros s' E1 E2. split; intros n b; rewrite ?E1, ?E2; apply F. }
    destruct e as [b|b|b|n|n l|n l|a x c|p|n|n|x|x|x|x|x|x|k|]; cbn [sstep]; try (by apply C); cbn in We.
    - by apply get_block_bfits.
    - unfold get_block_header. destruct (c_headers _ _ !! n) as [y|] eqn:CH; [by apply C|]. destruct (d_header _ _ !! _).
      + by apply C.
      + destruct (get_block_bfits h s n R F We) as [_ G]. destruct (get_block I s n) as [s' [o| |]]; exact G.
    - by apply get_number_bfits.
    - unfold get_block_by_hash. pose proof (get_number_db I s x) as D.
      destruct (get_number_bfits h s x R F) as [FN NN].
      destruct (get_number I s x) as [s' [n|]]; cbn in *; [|done].
      apply get_block_bfits; [by rewrite D|done|by apply NN].
    - unfold get_tx. destruct (c_txs _ _ !! x); [by apply C|]. destruct (d_num _ _ !! _); [|by apply C]. destruct (d_tx _ _ !! _); by apply C.
    - unfold get_receipt. destruct (c_rcpts _ _ !! x); [by apply C|]. destruct (d_num _ _ !! _); [|by apply C]. destruct (d_rcpt _ _ !! _); by apply C.
    - apply C; apply get_code_fields.
    - unfold get_code_by_address. destruct (d_code _ _ !! _) as [y|]; [|by apply C]. destruct (_ =? _)%nat; [|by apply C].
      destruct (get_code_fields s y) as [E1 E2]. destruct (get_code_by_hash I s y). by apply C.
    - destruct k as [k|k|k|k|k|k]; try (by apply C); split; try (apply F); intros m d; cbn;
        (destruct (decide (k = m)) as [<-|N]; [by rewrite lookup_delete|]; rewrite lookup_delete_ne by done; apply F).
    - split; intros m d; cbn; by rewrite lookup_empty.
  Qed.
  (** reading a block of a node's store *)
  Lemma srun_get_block h n : Forall (wf_event I) h -> bstable h -> n < 2 ^ 64 -> (get_block I (srun I h) n).2 = Ok (block_at I h n).
  Proof using. intros W S L. apply get_block_bfits; [by apply srun_refines|by apply srun_bfits|done]. Qed.
End Store.
