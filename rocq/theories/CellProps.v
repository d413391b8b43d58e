(** Properties of the CKB light client and image cell contracts: C29, C30. *)
From Verif Require Import Bytes BytesProofs Rlp RlpProofs TxModel TxSpec TxProofs BlockModel BlockProofs CellModel CellProofs.
From stdpp Require Import base gmap.
Local Open Scope N_scope.

(* ---------------------------------------------------------------- *)
(** * Specification, per out point *)

(** What a CKB block does to the cell at one out point: its last output with that out point
    creates the cell at the block's number; an input naming the out point marks the existing (or just created) cell as
    consumed at that number; nothing else touches it. *)
Definition cell_after (b : img_block) (k : cell_key) (old : option cell) : option cell :=
  let now := match last_out k (ib_outputs b) with
             | Some o => Some (Cell_ (oc_output o) (oc_data o) (ib_number b) None)
             | None => old end in
  if decide (k ∈ ib_inputs b)
  then option_map (λ c, Cell_ (c_output c) (c_data c) (c_created c) (Some (ib_number b))) now
  else now.

(** The undo record a relayer sends for a block. *)
Definition undo_of (b : img_block) : img_undo := ImgUndo_ (ib_inputs b) (map oc_key (ib_outputs b)).

Definition outs_of (bs : list img_block) : list cell_key := concat (map (λ b, map oc_key (ib_outputs b)) bs).
Definition ins_of (bs : list img_block) : list cell_key := concat (map ib_inputs bs).

(** Blocks of a real CKB chain: no out point is created twice or already there, and a
    consumed cell that was already there is still live. *)
Definition chain_valid (t : trie) (bs : list img_block) : Prop :=
  NoDup (outs_of bs) ∧ (∀ k, k ∈ outs_of bs → get_cell t k = Some None) ∧
  (∀ k c, k ∈ ins_of bs → get_cell t k = Some (Some c) → c_consumed c = None).

(* ---------------------------------------------------------------- *)
(** * Updates *)

Lemma raw_of_get t k : cells_ok t → wf_key k →
  t !! enc_cell_key k = match get_cell t k with Some (Some c) => Some (enc_cell c) | _ => None end.
Proof.
  intros K W. destruct (get_cell_ok t k K W) as [[-> ->]|(c & _ & -> & ->)]; done.
Qed.

Definition other_key (kb : bytes) : Prop := ∀ k, wf_key k → enc_cell_key k ≠ kb.

Lemma tries_eq t t' : cells_ok t → cells_ok t' → (∀ k, wf_key k → get_cell t k = get_cell t' k) →
  (∀ kb, other_key kb → t !! kb = t' !! kb) → t = t'.
Proof.
  intros K K' G O. apply map_eq. intros kb.
  destruct (dec_cell_key kb) as [k|] eqn:D.
  2: { apply O. intros k W <-. by rewrite dec_enc_cell_key in D. }
  destruct (decide (enc_cell_key k = kb)) as [<-|NE].
  2: { apply O. intros k' W <-. rewrite dec_enc_cell_key in D by done. by injection D as ->. }
  destruct (bool_decide (length (ck_tx k) = 32%nat) && wf_bytesb (ck_tx k) && (ck_index k <? 2^32)) eqn:B.
  - apply andb_prop in B as [B B3]. apply andb_prop in B as [B1 B2].
    assert (wf_key k) as W.
    { split; [split|]; [by apply wf_bytesb_spec|by apply bool_decide_eq_true in B1|by apply N.ltb_lt]. }
    rewrite !raw_of_get by done. by rewrite G.
  - apply O. intros k' W E. rewrite <- E, dec_enc_cell_key in D by done. injection D as ->.
    destruct W as [[W1 W2] W3]. rewrite bool_decide_eq_true_2 in B by done.
    apply wf_bytesb_spec in W1. rewrite W1 in B. by apply N.ltb_lt in W3; rewrite W3 in B.
Qed.

Lemma img_update_spec t bs : cells_ok t → Forall wf_block bs →
  ∃ t', img_update t bs = Some t' ∧ cells_ok t' ∧
    (∀ kb, other_key kb → t' !! kb = t !! kb) ∧
    (∀ k, wf_key k → get_cell t' k =
       option_map (λ c, foldl (λ c b, cell_after b k c) c bs) (get_cell t k)).
Proof.
  intros K W. revert t K. induction bs as [|b bs IH]; intros t K.
  - exists t. split; [done|]. split; [done|]. split; [done|]. intros k Wk. cbn.
    destruct (get_cell_ok t k K Wk) as [[-> _]|(c & _ & -> & _)]; done.
  - apply Forall_cons in W as [(Wn & Wi & Wo) W]. cbn [img_update].
    assert (cells_ok (save_cells t (ib_outputs b) (ib_number b))) as K1 by by apply save_cells_ok.
    destruct (mark_cells_spec _ (ib_inputs b) (Some (ib_number b)) Wi ltac:(by intros n [= <-]) K1)
      as (t2 & -> & K2 & O2 & F2). cbn [obind].
    destruct (IH W t2 K2) as (t' & -> & K' & O' & F'). exists t'. split; [done|]. split; [done|]. split.
    + intros kb Hkb. rewrite O' by done. rewrite O2.
      * apply save_cells_other. intros o Ho. apply Hkb. rewrite Forall_forall in Wo. by apply Wo.
      * intros k Hk. apply Hkb. rewrite Forall_forall in Wi. by apply Wi.
    + intros k Wk. rewrite F' by done. rewrite F2 by done. rewrite save_cells_get by done.
      cbn [foldl]. unfold cell_after, with_consumed, new_cell.
      destruct (get_cell_ok t k K Wk) as [[-> _]|(c & _ & -> & _)];
        destruct (last_out k (ib_outputs b)); destruct (decide (k ∈ ib_inputs b)); reflexivity.
Qed.

(** C29 (first half): an update always succeeds on a store with readable cells and leaves, at
    every out point, exactly what the blocks in order prescribe: creation and consumption carry
    the number of the block they occur in; everything that is not a cell is untouched. *)
Theorem C29_update {hdr} (hash henc : hdr → bytes) root bs : cells_ok root → Forall wf_block bs →
  ∃ root', cell_exec hash henc root (Some (ImgUpdate bs)) = (root', true) ∧
    (∀ k, wf_key k → ∃ c, get_cell root k = Some c ∧
       get_cell root' k = Some (foldl (λ c b, cell_after b k c) c bs)) ∧
    (∀ kb, length kb ≠ 36%nat → root' !! kb = root !! kb).
Proof.
  intros K W. destruct (img_update_spec root bs K W) as (t' & E & K' & O & F). exists t'.
  split; [cbn; by rewrite E|]. split.
  - intros k Wk. rewrite F by done.
    destruct (get_cell_ok root k K Wk) as [[-> _]|(c & _ & -> & _)]; eexists; split; done.
  - intros kb L. apply O. intros k Wk E'. apply L. rewrite <- E'. by apply enc_cell_key_len.
Qed.

(* ---------------------------------------------------------------- *)
(** * Rollbacks *)

Lemma img_rollback_spec t us : cells_ok t → Forall wf_undo us →
  removable t (map enc_cell_key (concat (map iu_outputs us))) →
  ∃ t', img_rollback t us = Some t' ∧ cells_ok t' ∧
    (∀ kb, other_key kb → t' !! kb = t !! kb) ∧
    (∀ k, wf_key k → get_cell t' k =
       if decide (k ∈ concat (map iu_outputs us)) then Some None
       else if decide (k ∈ concat (map iu_inputs us)) then option_map (option_map (with_consumed None)) (get_cell t k)
       else get_cell t k).
Proof.
  intros K W. revert t K. induction us as [|u us IH]; intros t K R.
  - exists t. split; [done|]. split; [done|]. split; [done|]. intros k Wk. cbn.
    destruct (decide (k ∈ [])) as [H|]; [by apply elem_of_nil in H|done].
  - apply Forall_cons in W as [[Wi Wo] W]. cbn [img_rollback map concat] in *. rewrite map_app in R.
    destruct R as [ND P]. apply NoDup_app in ND as (ND1 & DJ & ND2).
    assert (remove_cells t (iu_outputs u) = Some (foldl (λ t k, delete k t) t (map enc_cell_key (iu_outputs u)))) as E1.
    { apply remove_cells_iff. split; [|by rewrite foldl_delete_keys].
      split; [done|]. intros kb I. apply P, elem_of_app. by left. }
    rewrite E1. cbn [obind].
    set (t1 := foldl (λ t k, delete k t) t (map enc_cell_key (iu_outputs u))) in *.
    assert (cells_ok t1) as K1 by by apply foldl_delete_ok.
    assert (∀ k, wf_key k → get_cell t1 k = if decide (k ∈ iu_outputs u) then Some None else get_cell t k) as G1.
    { intros k Wk. unfold get_cell. unfold t1. rewrite foldl_delete_lookup.
      destruct (decide (k ∈ iu_outputs u)) as [I|I].
      - rewrite decide_True; [done|by apply elem_of_enc_keys].
      - rewrite decide_False; [done|]. by rewrite elem_of_enc_keys. }
    destruct (mark_cells_spec t1 (iu_inputs u) None Wi ltac:(done) K1) as (t2 & -> & K2 & O2 & F2). cbn [obind].
    destruct (IH W t2 K2) as (t' & -> & K' & O' & F').
    { split; [done|]. intros kb I.
      destruct (P kb) as [v Hv]; [apply elem_of_app; by right|].
      assert (t1 !! kb = Some v) as Hv1.
      { unfold t1. rewrite foldl_delete_lookup, decide_False; [done|]. intros J. by apply (DJ kb). }
      apply elem_of_list_In, in_map_iff in I as (k & <- & I). apply elem_of_list_In in I.
      assert (wf_key k) as Wk.
      { apply elem_of_list_In, in_concat in I as (l & Hl & I). apply in_map_iff in Hl as (u' & <- & Hu).
        apply elem_of_list_In in Hu, I. rewrite Forall_forall in W. destruct (W u' Hu) as [_ X].
        rewrite Forall_forall in X. by apply X. }
      rewrite raw_of_get in Hv1 |- * by done. rewrite F2 by done.
      destruct (get_cell_ok t1 k K1 Wk) as [[G _]|(c & _ & G & _)]; rewrite G in Hv1 |- *; [done|].
      destruct (decide (k ∈ iu_inputs u)); cbn; eauto. }
    exists t'. split; [done|]. split; [done|]. split.
    + intros kb Hkb. rewrite O' by done. rewrite O2.
      * unfold t1. rewrite foldl_delete_lookup, decide_False; [done|].
        intros I. apply elem_of_list_In, in_map_iff in I as (k & E & I). apply elem_of_list_In in I.
        rewrite Forall_forall in Wo. by apply (Hkb k (Wo k I)).
      * intros k Hk. apply Hkb. rewrite Forall_forall in Wi. by apply Wi.
    + intros k Wk. rewrite F' by done. rewrite F2, G1 by done.
      destruct (decide (k ∈ concat (map iu_outputs us))) as [A|A].
      { rewrite decide_True; [done|]. apply elem_of_app. by right. }
      destruct (decide (k ∈ iu_outputs u)) as [B|B].
      { rewrite (decide_True (P := k ∈ iu_outputs u ++ _)) by (apply elem_of_app; by left).
        by destruct (decide (k ∈ iu_inputs u)), (decide (k ∈ concat (map iu_inputs us))). }
      rewrite (decide_False (P := k ∈ iu_outputs u ++ _)) by (intros [|]%elem_of_app; done).
      destruct (get_cell_ok t k K Wk) as [[-> _]|(c & _ & -> & _)];
        destruct (decide (k ∈ iu_inputs u)) as [C|C], (decide (k ∈ concat (map iu_inputs us))) as [D|D];
        first [ rewrite (decide_True (P := k ∈ iu_inputs u ++ _)) by (apply elem_of_app; auto); done
              | rewrite (decide_False (P := k ∈ iu_inputs u ++ _)) by (intros [|]%elem_of_app; done); done ].
Qed.

Lemma cell_after_some b k c : is_Some c → is_Some (cell_after b k c).
Proof.
  intros [x ->]. unfold cell_after. destruct (last_out k (ib_outputs b)), (decide (k ∈ ib_inputs b)); cbn; eauto.
Qed.
Lemma cells_after_some bs k c : is_Some c → is_Some (foldl (λ c b, cell_after b k c) c bs).
Proof. revert c. induction bs; cbn; auto using cell_after_some. Qed.
Lemma last_out_some k outs : k ∈ map oc_key outs → is_Some (last_out k outs).
Proof.
  intros I. apply elem_of_list_In, in_map_iff in I as (o & E & I). apply elem_of_list_In in I.
  unfold last_out. apply last_is_Some. intros F.
  assert (o ∈ filter (λ o, oc_key o = k) outs) as J by by apply elem_of_list_filter.
  rewrite F in J. by apply elem_of_nil in J.
Qed.
Lemma last_out_none k outs : k ∉ map oc_key outs → last_out k outs = None.
Proof.
  intros I. unfold last_out. apply last_None.
  destruct (filter (λ o, oc_key o = k) outs) as [|o l] eqn:F; [done|].
  assert (o ∈ filter (λ o, oc_key o = k) outs) as J by (rewrite F; by left).
  apply elem_of_list_filter in J as [J1 J2]. destruct I. subst k.
  by apply elem_of_list_In, in_map, elem_of_list_In.
Qed.
Lemma cells_after_created bs k c : k ∈ outs_of bs → is_Some (foldl (λ c b, cell_after b k c) c bs).
Proof.
  revert c. induction bs as [|b bs IH]; intros c; cbn; [by intros H%elem_of_nil|].
  intros [I|I]%elem_of_app; [|by apply IH]. apply cells_after_some. unfold cell_after.
  destruct (last_out_some _ _ I) as [o ->]. destruct (decide _); cbn; eauto.
Qed.
Lemma cells_after_untouched bs k c : k ∉ outs_of bs → k ∉ ins_of bs → foldl (λ c b, cell_after b k c) c bs = c.
Proof.
  revert c. induction bs as [|b bs IH]; intros c; cbn; [done|].
  intros NO NI. assert (cell_after b k c = c) as ->.
  { unfold cell_after. rewrite last_out_none; [|intros ?; apply NO, elem_of_app; by left].
    rewrite decide_False; [done|]. intros ?; apply NI, elem_of_app; by left. }
  apply IH; intros ?; [apply NO|apply NI]; apply elem_of_app; by right.
Qed.
Lemma cells_after_spent bs k c : k ∉ outs_of bs →
  option_map (with_consumed None) (foldl (λ c b, cell_after b k c) c bs) = option_map (with_consumed None) c.
Proof.
  revert c. induction bs as [|b bs IH]; intros c; cbn; [done|].
  intros NO. rewrite IH by (intros ?; apply NO, elem_of_app; by right).
  unfold cell_after. rewrite last_out_none; [|intros ?; apply NO, elem_of_app; by left].
  destruct (decide _); [|done]. by destruct c.
Qed.

Lemma outs_of_undo bs : concat (map iu_outputs (map undo_of bs)) = outs_of bs.
Proof. unfold outs_of. by rewrite map_map. Qed.
Lemma ins_of_undo bs : concat (map iu_inputs (map undo_of bs)) = ins_of bs.
Proof. unfold ins_of. by rewrite map_map. Qed.

Lemma wf_outs_of bs : Forall wf_block bs → Forall wf_key (outs_of bs).
Proof.
  intros W. apply Forall_concat. apply Forall_map. eapply Forall_impl; [exact W|].
  intros b (_ & _ & Wo). apply Forall_map. eapply Forall_impl; [exact Wo|]. by intros o [? _].
Qed.
Lemma wf_undo_of b : wf_block b → wf_undo (undo_of b).
Proof.
  intros (_ & Wi & Wo). split; [done|]. cbn. apply Forall_map. eapply Forall_impl; [exact Wo|]. by intros o [? _].
Qed.
#[global] Instance concat_perm {A} : Proper (Permutation ==> Permutation) (@concat A).
Proof.
  intros l l' H. induction H; cbn; [done|by f_equiv| |by etrans].
  by rewrite !app_assoc, (Permutation_app_comm y x).
Qed.

(** C29 (second half): rolling back any batch of valid CKB blocks just applied, listed in any
    order, restores exactly the store before the update. *)
Theorem C29_rollback_partial {hdr} (hash henc : hdr → bytes) root bs us :
  cells_ok root → Forall wf_block bs → chain_valid root bs → us ≡ₚ map undo_of bs →
  ∃ root', cell_exec hash henc root (Some (ImgUpdate bs)) = (root', true) ∧
           cell_exec hash henc root' (Some (ImgRollback us)) = (root, true).
Proof.
  intros K W (ND & FR & LV) PM.
  destruct (img_update_spec root bs K W) as (t' & E & K' & O & F). exists t'.
  split; [cbn; by rewrite E|].
  assert (concat (map iu_outputs us) ≡ₚ outs_of bs) as PO by by rewrite <- outs_of_undo, PM.
  assert (concat (map iu_inputs us) ≡ₚ ins_of bs) as PI by by rewrite <- ins_of_undo, PM.
  pose proof (wf_outs_of bs W) as WO.
  destruct (img_rollback_spec t' us K') as (t'' & E'' & K'' & O'' & F'').
  { rewrite PM. apply Forall_map. eapply Forall_impl; [exact W|]. apply wf_undo_of. }
  { split.
    - rewrite PO. apply NoDup_fmap_2_strong; [|done]. intros x y Hx Hy.
      rewrite Forall_forall in WO. apply enc_cell_key_inj; by apply WO.
    - intros kb I. rewrite PO in I. apply elem_of_list_In, in_map_iff in I as (k & <- & I).
      apply elem_of_list_In in I. assert (wf_key k) as Wk by (rewrite Forall_forall in WO; by apply WO).
      rewrite raw_of_get by done. rewrite F by done. rewrite (FR k I). cbn.
      destruct (cells_after_created bs k None I) as [c ->]. by eexists. }
  cbn. rewrite E''. f_equal. apply tries_eq; [done|done| |].
  - intros k Wk. rewrite F'', F by done.
    destruct (decide (k ∈ outs_of bs)) as [I|I].
    { rewrite decide_True by by rewrite PO. symmetry. by apply FR. }
    rewrite (decide_False (P := k ∈ concat (map iu_outputs us))) by by rewrite PO.
    destruct (decide (k ∈ ins_of bs)) as [J|J].
    + rewrite decide_True by by rewrite PI.
      destruct (get_cell_ok root k K Wk) as [[G _]|(c & _ & G & _)]; rewrite G; cbn [option_map];
        f_equal; rewrite cells_after_spent by done; [done|].
      cbn. f_equal. pose proof (LV k c J G) as L. destruct c; cbn in *. by rewrite L.
    + rewrite decide_False by by rewrite PI.
      destruct (get_cell_ok root k K Wk) as [[-> _]|(c & _ & -> & _)]; cbn [option_map]; by rewrite cells_after_untouched.
  - intros kb Hkb. rewrite O'', O by done. done.
Qed.

(** A call that fails leaves the store alone, and rolling back fails exactly when an output is
    missing or listed twice. *)
Theorem C29_failure_no_effect {hdr} (hash henc : hdr → bytes) root call root' :
  cell_exec hash henc root call = (root', false) → root' = root.
Proof.
  destruct call as [[]|]; cbn; try congruence;
    match goal with |- context [match ?o with Some _ => _ | None => _ end] => destruct o end; congruence.
Qed.

Lemma img_rollback_removable t us t' : cells_ok t → Forall wf_undo us → img_rollback t us = Some t' →
  removable t (map enc_cell_key (concat (map iu_outputs us))).
Proof.
  revert t. induction us as [|u us IH]; intros t K W E.
  - split; [constructor|]. intros kb I. by apply elem_of_nil in I.
  - apply Forall_cons in W as [[Wi Wo] W]. cbn [img_rollback map concat] in *. rewrite map_app.
    destruct (remove_cells t (iu_outputs u)) as [t1|] eqn:E1; cbn [obind] in E; [|done].
    apply remove_cells_iff in E1 as [[ND P] E1]. rewrite foldl_delete_keys in E1.
    assert (cells_ok t1) as K1 by (subst; by apply foldl_delete_ok).
    destruct (mark_cells_spec t1 (iu_inputs u) None Wi ltac:(done) K1) as (t2 & E2 & K2 & O2 & F2).
    rewrite E2 in E. cbn [obind] in E.
    destruct (IH t2 K2 W E) as [ND2 P2].
    assert (∀ kb, kb ∈ map enc_cell_key (concat (map iu_outputs us)) → is_Some (t1 !! kb)) as P1.
    { intros kb I. specialize (P2 kb I). apply elem_of_list_In, in_map_iff in I as (k & <- & I).
      assert (wf_key k) as Wk.
      { apply in_concat in I as (l & Hl & I). apply in_map_iff in Hl as (u' & <- & Hu).
        apply elem_of_list_In in Hu, I. rewrite Forall_forall in W. destruct (W u' Hu) as [_ X].
        rewrite Forall_forall in X. by apply X. }
      rewrite raw_of_get in P2 |- * by done. rewrite F2 in P2 by done.
      destruct (get_cell_ok t1 k K1 Wk) as [[G _]|(c & _ & G & _)]; rewrite G in P2 |- *; [|eauto].
      by destruct (decide (k ∈ iu_inputs u)). }
    assert (∀ kb, kb ∈ map enc_cell_key (concat (map iu_outputs us)) →
      kb ∉ map enc_cell_key (iu_outputs u) ∧ is_Some (t !! kb)) as P3.
    { intros kb I. specialize (P1 kb I). rewrite E1, foldl_delete_lookup in P1.
      destruct (decide (kb ∈ map enc_cell_key (iu_outputs u))); [by destruct P1|done]. }
    split.
    + apply NoDup_app. split; [done|]. split; [|done]. intros kb I J. by apply (P3 kb J).
    + intros kb [I|I]%elem_of_app; [by apply P|by apply P3].
Qed.

Theorem C29_rollback_fails_iff {hdr} (hash henc : hdr → bytes) root us : cells_ok root → Forall wf_undo us →
  (cell_exec hash henc root (Some (ImgRollback us))).2 = true ↔
  NoDup (concat (map iu_outputs us)) ∧
  ∀ k, k ∈ concat (map iu_outputs us) → ∃ c, get_cell root k = Some (Some c).
Proof.
  intros K W. cbn.
  assert (Forall wf_key (concat (map iu_outputs us))) as WO.
  { apply Forall_concat. apply Forall_map. eapply Forall_impl; [exact W|]. by intros u [_ ?]. }
  rewrite Forall_forall in WO. split.
  - destruct (img_rollback root us) as [t'|] eqn:E; [intros _|done].
    destruct (img_rollback_removable _ _ _ K W E) as [ND P]. split; [by eapply NoDup_fmap_1|].
    intros k I. specialize (P (enc_cell_key k)). rewrite raw_of_get in P by auto.
    destruct (get_cell_ok root k K (WO k I)) as [[G _]|(c & _ & G & _)]; rewrite G in P |- *; [|eauto].
    destruct P; [|done]. by apply elem_of_list_In, in_map, elem_of_list_In.
  - intros [ND P]. destruct (img_rollback_spec root us K W) as (t' & -> & _); [|done]. split.
    + apply NoDup_fmap_2_strong; [|done]. intros x y Hx Hy. apply enc_cell_key_inj; by apply WO.
    + intros kb I. apply elem_of_list_In, in_map_iff in I as (k & <- & I). apply elem_of_list_In in I.
      rewrite raw_of_get by auto. destruct (P k I) as [c ->]. eauto.
Qed.

(* ---------------------------------------------------------------- *)
(** * C30: headers *)
Section C30.
  Context {hdr : Type} (hash henc : hdr → bytes) (hdec : bytes → option hdr).
  (** ABI encoding of a header is invertible and not empty (external crate). *)
  Hypothesis hdec_enc : ∀ h, hdec (henc h) = Some h.
  Hypothesis henc_ne : ∀ h, henc h ≠ [].

  Lemma hdr_update_lookup t hs k :
    foldl (save_header hash henc) t hs !! k =
      match last (filter (λ h, hash h = k) hs) with Some h => Some (henc h) | None => t !! k end.
  Proof using henc_ne.
    clear hdec_enc. induction hs as [|h hs IH] using rev_ind; [done|].
    rewrite foldl_app, filter_app. cbn [foldl]. unfold save_header at 1.
    rewrite trie_insert_nonnil by done.
    destruct (decide (hash h = k)) as [E|E].
    - rewrite (filter_cons_True (λ h, hash h = k) h []) by done. rewrite filter_nil, last_snoc.
      by rewrite E, lookup_insert.
    - rewrite (filter_cons_False (λ h, hash h = k) h []) by done. rewrite filter_nil, app_nil_r.
      by rewrite lookup_insert_ne.
  Qed.

  (** After an update, looking up a hash gives the last given header with that hash, and what was there before
      for any other hash; image cells are untouched. *)
  Theorem C30_update root hs : ∃ root',
    cell_exec hash henc root (Some (CkbUpdate hs)) = (root', true) ∧
    (∀ k, get_header hdec root' k =
       match last (filter (λ h, hash h = k) hs) with Some h => Some (Some h) | None => get_header hdec root k end) ∧
    ((∀ h, h ∈ hs → length (hash h) = 32%nat) → ∀ k, wf_key k → get_cell root' k = get_cell root k).
  Proof using hdec_enc henc_ne.
    exists (foldl (save_header hash henc) root hs). split; [done|]. split.
    - intros k. unfold get_header. rewrite hdr_update_lookup.
      destruct (last _) as [h|]; [by rewrite hdec_enc|done].
    - intros L k Wk. apply get_cell_lookup. rewrite hdr_update_lookup.
      destruct (last (filter (λ h, hash h = enc_cell_key k) hs)) as [h|] eqn:E; [|done].
      apply last_Some in E as [l E].
      assert (h ∈ filter (λ h, hash h = enc_cell_key k) hs) as I by (rewrite E; apply elem_of_app; right; by left).
      apply elem_of_list_filter in I as [E2 I]. pose proof (L h I) as L1. rewrite E2, enc_cell_key_len in L1 by done. done.
  Qed.

  Lemma hdr_rollback_iff t ks t' : hdr_rollback t ks = Some t' ↔ removable t ks ∧ t' = foldl (λ t k, delete k t) t ks.
  Proof using.
    clear. revert t. induction ks as [|x ks IH]; intros t.
    - cbn. split; [intros [= <-]|by intros [_ ->]]. split; [|done].
      split; [constructor|intros ? H; by apply elem_of_nil in H].
    - cbn [hdr_rollback]. unfold remove_header, trie_remove.
      destruct (decide (is_Some (t !! x))) as [S|S].
      + rewrite bool_decide_eq_true_2 by done. cbn [obind foldl]. rewrite IH. by rewrite removable_cons.
      + rewrite bool_decide_eq_false_2 by done. cbn [obind]. split; [done|].
        intros [[_ P] _]. destruct S. apply P. by left.
  Qed.

  (** A rollback succeeds exactly when the given hashes are distinct and all stored; then exactly
      they become unreadable and every other entry (header or cell) stays; otherwise nothing changes. *)
  Theorem C30_rollback root ks :
    (NoDup ks ∧ (∀ k, k ∈ ks → is_Some (root !! k)) →
     ∃ root', cell_exec hash henc root (Some (CkbRollback ks)) = (root', true) ∧
       (∀ k, k ∈ ks → get_header hdec root' k = Some None) ∧
       (∀ k, k ∉ ks → root' !! k = root !! k)) ∧
    (¬ (NoDup ks ∧ ∀ k, k ∈ ks → is_Some (root !! k)) →
     cell_exec hash henc root (Some (CkbRollback ks)) = (root, false)).
  Proof using.
    clear. split.
    - intros R. exists (foldl (λ t k, delete k t) root ks). split; [|split].
      + cbn. by rewrite (proj2 (hdr_rollback_iff root ks (foldl (λ t k, delete k t) root ks)) (conj R eq_refl)).
      + intros k I. unfold get_header. by rewrite foldl_delete_lookup, decide_True.
      + intros k I. by rewrite foldl_delete_lookup, decide_False.
    - intros R. cbn. destruct (hdr_rollback root ks) as [t|] eqn:E; [|done].
      apply hdr_rollback_iff in E as [E _]. by destruct R.
  Qed.

  (** Updating with new headers and rolling their hashes back, in any order, restores the store. *)
  Theorem C30_update_rollback root hs ks :
    NoDup (map hash hs) → (∀ h, h ∈ hs → root !! hash h = None) → ks ≡ₚ map hash hs →
    ∃ root', cell_exec hash henc root (Some (CkbUpdate hs)) = (root', true) ∧
             cell_exec hash henc root' (Some (CkbRollback ks)) = (root, true).
  Proof using henc_ne.
    clear hdec_enc. intros ND FR PM. exists (foldl (save_header hash henc) root hs). split; [done|].
    cbn. rewrite (proj2 (hdr_rollback_iff _ ks (foldl (λ t k, delete k t) (foldl (save_header hash henc) root hs) ks))).
    - f_equal. apply map_eq. intros k. rewrite foldl_delete_lookup, hdr_update_lookup.
      destruct (decide (k ∈ ks)) as [I|I].
      + rewrite PM in I. apply elem_of_list_In, in_map_iff in I as (h & <- & I). apply elem_of_list_In in I.
        by rewrite FR.
      + destruct (last (filter (λ h, hash h = k) hs)) as [h|] eqn:E; [|done].
        apply last_Some in E as [l E].
        assert (h ∈ filter (λ h, hash h = k) hs) as J by (rewrite E; apply elem_of_app; right; by left).
        apply elem_of_list_filter in J as [<- J]. destruct I. rewrite PM.
        by apply elem_of_list_In, in_map, elem_of_list_In.
    - split; [|done]. split; [by rewrite PM|]. intros k I. rewrite PM in I.
      apply elem_of_list_In, in_map_iff in I as (h & <- & I). apply elem_of_list_In in I.
      rewrite hdr_update_lookup. destruct (last (filter (λ h0, hash h0 = hash h) hs)) as [h'|] eqn:E; [by eexists|].
      apply last_None in E. assert (h ∈ filter (λ h0, hash h0 = hash h) hs) as J by by apply elem_of_list_filter.
      rewrite E in J. by apply elem_of_nil in J.
  Qed.

  (* ---------------- reachable stores ---------------- *)
  Definition wf_call (c : cell_call (hdr := hdr)) : Prop :=
    match c with
    | CkbUpdate hs => Forall (λ h, length (hash h) = 32%nat) hs
    | ImgUpdate bs => Forall wf_block bs
    | ImgRollback us => Forall wf_undo us
    | _ => True
    end.

  (** Every store reached from the empty one by ABI-typed calls has readable cells, so the
      hypothesis [cells_ok] of the theorems above holds of every reachable store. *)
  Theorem C29_reachable calls : Forall (λ c, match c with Some c => wf_call c | None => True end) calls →
    cells_ok (foldl (λ t c, (cell_exec hash henc t c).1) ∅ calls).
  Proof using henc_ne.
    clear hdec_enc. intros W. assert (cells_ok ∅) as K by (intros k b _ E; by rewrite lookup_empty in E).
    revert K. generalize (∅ : trie). induction calls as [|c calls IH]; intros t K; [done|].
    apply Forall_cons in W as [Wc W]. cbn [foldl]. apply (IH W). clear IH W.
    destruct c as [[]|]; cbn in *; try done.
    - intros k b Wk E. rewrite hdr_update_lookup in E.
      destruct (last (filter (λ h, hash h = enc_cell_key k) hs)) as [h|] eqn:E2; [|by apply (K k)].
      apply last_Some in E2 as [l E2].
      assert (h ∈ filter (λ h, hash h = enc_cell_key k) hs) as I by (rewrite E2; apply elem_of_app; right; by left).
      apply elem_of_list_filter in I as [E3 I]. rewrite Forall_forall in Wc. pose proof (Wc h I) as L1.
      cbn in L1. rewrite E3, enc_cell_key_len in L1 by done. done.
    - destruct (hdr_rollback t ks) as [t'|] eqn:E; [|done]. apply hdr_rollback_iff in E as [_ ->].
      by apply foldl_delete_ok.
    - destruct (img_update_spec t bs K Wc) as (t' & -> & K' & _). done.
    - destruct (img_rollback t bs) as [t'|] eqn:E; [|done]. cbn.
      pose proof (img_rollback_removable _ _ _ K Wc E) as R.
      destruct (img_rollback_spec t bs K Wc R) as (t2 & E2 & K2 & _). rewrite E in E2. by injection E2 as ->.
  Qed.
End C30.

(* ---------------------------------------------------------------- *)
(** * Concrete cases and the counterexample *)
Definition key1 : cell_key := CellKey_ (repeat 1 32) 0.
Definition key2 : cell_key := CellKey_ (repeat 2 32) 7.
Definition blk1 : img_block := ImgBlock_ 10 [] [OutCell_ key1 [1;2;3] [9]].
Definition blk2 : img_block := ImgBlock_ 11 [key1] [OutCell_ key2 [4] []].
Definition blk3 : img_block := ImgBlock_ 12 [key1] [].
Definition exec0 := cell_exec (λ h : bytes, h) (λ h : bytes, 1 :: h).
Definition store1 : trie := (exec0 ∅ (Some (ImgUpdate [blk1]))).1.
Definition store2 : trie := (exec0 store1 (Some (ImgUpdate [blk2]))).1.

Example C29_example : chain_valid store1 [blk2] ∧ Forall wf_block [blk2] ∧
  get_cell store2 key1 = Some (Some (Cell_ [1;2;3] [9] 10 (Some 11))) ∧
  get_cell store2 key2 = Some (Some (Cell_ [4] [] 11 None)) ∧
  exec0 store2 (Some (ImgRollback [undo_of blk2])) = (store1, true) ∧ store2 ≠ store1.
Proof.
  assert (wf_key key1 ∧ wf_key key2) as [W1 W2].
  { split; (split; [split; [apply wf_bytesb_spec; vm_compute; reflexivity|reflexivity]|vm_compute; reflexivity]). }
  split; [|split; [|split; [|split; [|split]]]].
  - split; [|split].
    + cbn. apply NoDup_singleton.
    + intros k I. cbn in I. apply elem_of_list_singleton in I as ->. vm_compute. reflexivity.
    + intros k c I. cbn in I. apply elem_of_list_singleton in I as ->. vm_compute. intros [= <-]. reflexivity.
  - constructor; [|constructor]. split; [reflexivity|]. split; [by repeat constructor|].
    constructor; [|constructor]. split; [done|]. repeat split; try (vm_compute; reflexivity); by repeat constructor.
  - vm_compute. reflexivity.
  - vm_compute. reflexivity.
  - apply (bool_decide_unpack _). vm_compute. exact I.
  - intros E. assert (get_cell store2 key1 = get_cell store1 key1) as X by by rewrite E.
    vm_compute in X. discriminate.
Qed.

(** The contract does not check that an input is still live: a block that names an already consumed cell, applied and
    rolled back, turns that cell live again. *)
Theorem C29_rollback_refuted : ∃ (calls : list (option cell_call)) b,
  let root := foldl (λ t c, (exec0 t c).1) ∅ calls in
  let root' := (exec0 root (Some (ImgUpdate [b]))).1 in
  let root'' := (exec0 root' (Some (ImgRollback [undo_of b]))).1 in
  (exec0 root (Some (ImgUpdate [b]))).2 = true ∧ (exec0 root' (Some (ImgRollback [undo_of b]))).2 = true ∧
  (∃ c, get_cell root key1 = Some (Some c) ∧ c_consumed c = Some 11) ∧
  (∃ c, get_cell root'' key1 = Some (Some c) ∧ c_consumed c = None).
Proof.
  exists [Some (ImgUpdate [blk1]); Some (ImgUpdate [blk2])], blk3. cbv zeta.
  split; [vm_compute; reflexivity|]. split; [vm_compute; reflexivity|].
  split; eexists; (split; [vm_compute; reflexivity|reflexivity]).
Qed.

Definition hdr1 : bytes := repeat 5 32.
Definition hdr2 : bytes := repeat 6 32.
Example C30_example :
  (exec0 store1 (Some (CkbUpdate [hdr1; hdr2]))).2 = true ∧
  (exec0 (exec0 store1 (Some (CkbUpdate [hdr1; hdr2]))).1 (Some (CkbRollback [hdr2; hdr1]))) = (store1, true) ∧
  (exec0 (exec0 store1 (Some (CkbUpdate [hdr1]))).1 (Some (CkbRollback [hdr1; hdr2]))).2 = false.
Proof.
  split; [vm_compute; reflexivity|]. split; [|vm_compute; reflexivity].
  apply (bool_decide_unpack _). vm_compute. exact I.
Qed.

Print Assumptions C29_update.
Print Assumptions C29_rollback_partial.
Print Assumptions C29_failure_no_effect.
Print Assumptions C29_rollback_fails_iff.
Print Assumptions C29_reachable.
Print Assumptions C29_rollback_refuted.
Print Assumptions C30_update.
Print Assumptions C30_rollback.
Print Assumptions C30_update_rollback.
