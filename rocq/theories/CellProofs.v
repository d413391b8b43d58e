(** Facts about the header/cell trie: codecs, key spaces, lookups after updates and rollbacks. *)
From Verif Require Import Bytes BytesProofs Rlp RlpProofs TxModel TxSpec TxProofs BlockModel BlockProofs CellModel.
From stdpp Require Import base gmap.
Local Open Scope N_scope.

(** Well-formed out points and cells: 32-byte hash, u32 index, u64 numbers, contents below 2^60 bytes. *)
Definition wf_key (k : cell_key) : Prop := fixed 32 (ck_tx k) ∧ ck_index k < 2^32.
Definition wf_cell (c : cell) : Prop :=
  wf_bytes (c_output c) ∧ wf_bytes (c_data c) ∧ len (c_output c) < 2^60 ∧ len (c_data c) < 2^60 ∧
  c_created c < 2^64 ∧ match c_consumed c with Some n => n < 2^64 | None => True end.

Lemma enc_cell_key_len k : wf_key k → length (enc_cell_key k) = 36%nat.
Proof. intros [[_ L] _]. unfold enc_cell_key. by rewrite app_length, le_fixed_length, L. Qed.

Lemma enc_cell_key_inj k k' : wf_key k → wf_key k' → enc_cell_key k = enc_cell_key k' → k = k'.
Proof.
  intros [[_ L] B] [[_ L'] B'] E. unfold enc_cell_key in E.
  apply app_inj_1 in E as [E1 E2]; [|congruence].
  apply le_fixed_inj in E2; [|exact B|exact B']. destruct k, k'. cbn in *. congruence.
Qed.

Lemma dec_enc_cell_key k : wf_key k → dec_cell_key (enc_cell_key k) = Some k.
Proof.
  intros W. unfold dec_cell_key. rewrite (enc_cell_key_len k W). cbn [Nat.eqb].
  destruct W as [[_ L] B]. unfold enc_cell_key.
  rewrite (firstn_app_exact _ _ 32 L), (skipn_app_exact _ _ 32 L).
  rewrite (firstn_all2 (n:=4) (le_fixed 4 (ck_index k))) by (by rewrite le_fixed_length).
  rewrite (le_val_fixed 4 _ B). by destruct k.
Qed.

Lemma enc_header_len b l : l < 2^64 → len (enc_header b l) <= 9.
Proof.
  intros L. unfold enc_header. destruct (l <? 56); [vm_compute; discriminate|].
  rewrite len_cons. unfold len. rewrite be_min_length. pose proof (nbytes_le_8 l L). lia.
Qed.
Lemma enc_str_len_upper b : len b < 2^64 → len (enc_str b) <= len b + 9.
Proof.
  intros L. destruct (enc_str_cases b) as [(x & -> & Hx & ->)|[-> _]]; [lia|].
  rewrite len_app. pose proof (enc_header_len 128 _ L). lia.
Qed.
Lemma enc_uint_len n : n < 2^64 → len (enc_uint n) <= 17.
Proof.
  intros L. unfold enc_uint. pose proof (nbytes_le_8 n L).
  assert (len (be_min n) <= 8) by (unfold len; rewrite be_min_length; lia).
  pose proof (enc_str_len_upper (be_min n)). lia.
Qed.
Lemma enc_list_len_upper l : len (concat l) < 2^64 → len (enc_list l) <= len (concat l) + 9.
Proof. intros L. unfold enc_list. rewrite len_app. pose proof (enc_header_len 192 _ L). lia. Qed.

Lemma enc_cell_len c : wf_cell c → len (enc_cell c) < 2^64.
Proof.
  intros (_ & _ & L1 & L2 & L3 & L4).
  assert (len (enc_option (option_map enc_uint (c_consumed c))) <= 26) as LO.
  { destruct (c_consumed c) as [n|]; [|vm_compute; discriminate].
    cbn [option_map enc_option]. pose proof (enc_uint_len n L4) as U.
    pose proof (enc_list_len_upper [enc_uint n]) as E. cbn [concat] in E. rewrite app_nil_r in E. lia. }
  pose proof (enc_str_len_upper (c_output c)). pose proof (enc_str_len_upper (c_data c)).
  pose proof (enc_uint_len _ L3).
  assert (len (concat (cell_items c)) < 2^63) as LC.
  { unfold cell_items. cbn [concat]. rewrite !len_app, len_nil. lia. }
  unfold enc_cell. pose proof (enc_list_len_upper (cell_items c)). lia.
Qed.

Lemma dec_enc_cell c : wf_cell c → dec_cell (enc_cell c) = Some c.
Proof.
  intros W. pose proof (enc_cell_len c W) as L. destruct W as (W0 & W1 & _ & _ & W2 & W3).
  unfold enc_cell in *. assert (LC := N.le_lt_trans _ _ _ (enc_list_len _) L).
  destruct (field _ _ _ (cell_items c) _ codec_str W0) as [I0 D0]; [unfold cell_items; in_tac|exact LC|].
  destruct (field _ _ _ (cell_items c) _ codec_str W1) as [I1 D1]; [unfold cell_items; in_tac|exact LC|].
  destruct (field _ _ _ (cell_items c) _ codec_u64 W2) as [I2 D2]; [unfold cell_items; in_tac|exact LC|].
  destruct (field _ _ _ (cell_items c) _ (codec_option _ _ _ codec_u64) W3) as [I3 D3]; [unfold cell_items; in_tac|exact LC|].
  assert (Forall is_item (cell_items c)) as HI by (unfold cell_items; repeat constructor; assumption).
  unfold dec_cell. rd 0%nat HI LC D0. rd 1%nat HI LC D1. rd 2%nat HI LC D2. rd 3%nat HI LC D3. by destruct c.
Qed.

Lemma enc_cell_nonnil c : enc_cell c ≠ [].
Proof. apply enc_list_nonnil. Qed.

Lemma trie_insert_nonnil t k v : v ≠ [] → trie_insert t k v = <[k := v]> t.
Proof. by destruct v. Qed.
Lemma insert_cell_eq t k c : insert_cell t k c = <[enc_cell_key k := enc_cell c]> t.
Proof. apply trie_insert_nonnil, enc_cell_nonnil. Qed.

(** Every cell entry of the trie is the encoding of a well-formed cell. *)
Definition cells_ok (t : trie) : Prop :=
  ∀ k b, wf_key k → t !! enc_cell_key k = Some b → ∃ c, wf_cell c ∧ b = enc_cell c.

Lemma get_cell_ok t k : cells_ok t → wf_key k →
  get_cell t k = Some None ∧ t !! enc_cell_key k = None ∨
  ∃ c, wf_cell c ∧ get_cell t k = Some (Some c) ∧ t !! enc_cell_key k = Some (enc_cell c).
Proof.
  intros K W. unfold get_cell. destruct (t !! enc_cell_key k) as [b|] eqn:E; [|by left].
  destruct (K _ _ W E) as (c & Wc & ->). right. exists c. by rewrite (dec_enc_cell c Wc).
Qed.

Lemma get_cell_lookup t t' k : t !! enc_cell_key k = t' !! enc_cell_key k → get_cell t k = get_cell t' k.
Proof. unfold get_cell. by intros ->. Qed.

Lemma get_cell_insert_eq t k c : wf_cell c → get_cell (insert_cell t k c) k = Some (Some c).
Proof. intros W. unfold get_cell. rewrite insert_cell_eq, lookup_insert. by rewrite (dec_enc_cell c W). Qed.
Lemma get_cell_insert_ne t k k' c : wf_key k → wf_key k' → k ≠ k' → get_cell (insert_cell t k c) k' = get_cell t k'.
Proof.
  intros W W' NE. apply get_cell_lookup. rewrite insert_cell_eq, lookup_insert_ne; [done|].
  intros E. by apply enc_cell_key_inj in E.
Qed.

Lemma cells_ok_insert t k c : cells_ok t → wf_cell c → cells_ok (insert_cell t k c).
Proof.
  intros K W k' b Wk' E. rewrite insert_cell_eq in E.
  apply lookup_insert_Some in E as [[_ <-]|[_ E]]; [by exists c|]. by apply (K k').
Qed.
Lemma cells_ok_delete t kb : cells_ok t → cells_ok (delete kb t).
Proof. intros K k b W E. apply lookup_delete_Some in E as [_ E]. by apply (K k). Qed.

(** What a block's arguments must satisfy: ABI-typed values. *)
Definition wf_out (o : out_cell) : Prop :=
  wf_key (oc_key o) ∧ wf_bytes (oc_output o) ∧ wf_bytes (oc_data o) ∧
  len (oc_output o) < 2^60 ∧ len (oc_data o) < 2^60.
Definition wf_block (b : img_block) : Prop :=
  ib_number b < 2^64 ∧ Forall wf_key (ib_inputs b) ∧ Forall wf_out (ib_outputs b).
Definition wf_undo (b : img_undo) : Prop := Forall wf_key (iu_inputs b) ∧ Forall wf_key (iu_outputs b).

Definition with_consumed (v : option N) (c : cell) : cell := Cell_ (c_output c) (c_data c) (c_created c) v.
Definition new_cell (n : N) (o : out_cell) : cell := Cell_ (oc_output o) (oc_data o) n None.

#[global] Instance cell_key_eq_dec : EqDecision cell_key.
Proof. solve_decision. Defined.

Lemma wf_new_cell n o : n < 2^64 → wf_out o → wf_cell (new_cell n o).
Proof. intros Hn (_ & ? & ? & ? & ?). by repeat split. Qed.
Lemma wf_with_consumed v c : wf_cell c → (∀ n, v = Some n → n < 2^64) → wf_cell (with_consumed v c).
Proof.
  intros (? & ? & ? & ? & ? & _) Hv. repeat split; try done. cbn. destruct v; [by apply Hv|done].
Qed.

(** The last output of a list with a given out point. *)
Definition last_out (k : cell_key) (outs : list out_cell) : option out_cell :=
  last (filter (λ o, oc_key o = k) outs).

Lemma last_out_snoc k outs o : last_out k (outs ++ [o]) = if decide (oc_key o = k) then Some o else last_out k outs.
Proof.
  unfold last_out. rewrite filter_app. destruct (decide (oc_key o = k)) as [E|E].
  - rewrite (filter_cons_True (λ o, oc_key o = k) o []) by done. by rewrite filter_nil, last_snoc.
  - rewrite (filter_cons_False (λ o, oc_key o = k) o []) by done. by rewrite filter_nil, app_nil_r.
Qed.

Lemma save_cells_snoc t outs o n :
  save_cells t (outs ++ [o]) n = insert_cell (save_cells t outs n) (oc_key o) (new_cell n o).
Proof. unfold save_cells. by rewrite foldl_app. Qed.

Lemma save_cells_ok t outs n : n < 2^64 → Forall wf_out outs → cells_ok t → cells_ok (save_cells t outs n).
Proof.
  intros Hn W K. induction outs as [|o outs IH] using rev_ind; [done|].
  apply Forall_app in W as [W Wo]. apply Forall_cons in Wo as [Wo _]. rewrite save_cells_snoc.
  apply cells_ok_insert; [by apply IH|exact (wf_new_cell n o Hn Wo)].
Qed.

Lemma save_cells_get t outs n k : n < 2^64 → Forall wf_out outs → wf_key k →
  get_cell (save_cells t outs n) k =
    match last_out k outs with Some o => Some (Some (new_cell n o)) | None => get_cell t k end.
Proof.
  intros Hn W Wk. induction outs as [|o outs IH] using rev_ind; [done|].
  apply Forall_app in W as [W Wo]. apply Forall_cons in Wo as [Wo _]. rewrite save_cells_snoc, last_out_snoc.
  destruct (decide (oc_key o = k)) as [<-|NE].
  - apply get_cell_insert_eq, (wf_new_cell n o Hn Wo).
  - rewrite (get_cell_insert_ne _ _ _ _ (proj1 Wo) Wk NE). exact (IH W).
Qed.

(** Entries whose key is not a cell key are untouched. *)
Lemma save_cells_other t outs n kb : (∀ o, o ∈ outs → enc_cell_key (oc_key o) ≠ kb) →
  save_cells t outs n !! kb = t !! kb.
Proof.
  intros H. induction outs as [|o outs IH] using rev_ind; [done|]. rewrite save_cells_snoc, insert_cell_eq.
  rewrite lookup_insert_ne by (apply H, elem_of_app; right; by apply elem_of_list_singleton).
  apply IH. intros x Hx. apply H, elem_of_app. by left.
Qed.

Lemma mark_cells_spec t ins v : Forall wf_key ins → (∀ n, v = Some n → n < 2^64) → cells_ok t →
  ∃ t', mark_cells t ins v = Some t' ∧ cells_ok t' ∧
    (∀ kb, (∀ k, k ∈ ins → enc_cell_key k ≠ kb) → t' !! kb = t !! kb) ∧
    (∀ k, wf_key k → get_cell t' k =
       if decide (k ∈ ins) then option_map (option_map (with_consumed v)) (get_cell t k) else get_cell t k).
Proof.
  intros W Hv. revert t. induction ins as [|x ins IH]; intros t K.
  - exists t. split; [done|]. split; [done|]. split; [done|]. intros k _.
    destruct (decide (k ∈ [])) as [H|]; [by apply elem_of_nil in H|done].
  - apply Forall_cons in W as [Wx W]. specialize (IH W). cbn [mark_cells].
    destruct (get_cell_ok t x K Wx) as [[G L]|(c & Wc & G & L)]; rewrite G; cbn [obind].
    + destruct (IH t K) as (t' & -> & K' & O & F). exists t'. split; [done|]. split; [done|]. split.
      * intros kb H. apply O. intros k Hk. apply H. by right.
      * intros k Wk. rewrite F by done. destruct (decide (k ∈ ins)) as [I|I].
        -- rewrite decide_True by (by right). done.
        -- destruct (decide (k ∈ x :: ins)) as [J|J]; [|done].
           apply elem_of_cons in J as [->|J]; [by rewrite G|done].
    + assert (wf_cell (with_consumed v c)) as Wc' by by apply wf_with_consumed.
      destruct (IH (insert_cell t x (with_consumed v c))) as (t' & E & K' & O & F);
        [by apply cells_ok_insert|].
      exists t'. split; [exact E|]. split; [done|]. split.
      * intros kb H. rewrite O by (intros k Hk; apply H; by right).
        rewrite insert_cell_eq, lookup_insert_ne; [done|]. apply H. by left.
      * intros k Wk. rewrite F by done. destruct (decide (k = x)) as [->|NE].
        -- rewrite (decide_True (P := x ∈ x :: ins)) by by left.
           rewrite get_cell_insert_eq by done. rewrite G. cbn [option_map].
           by destruct (decide (x ∈ ins)).
        -- rewrite get_cell_insert_ne by done.
           destruct (decide (k ∈ ins)) as [I|I].
           ++ rewrite decide_True by by right. done.
           ++ destruct (decide (k ∈ x :: ins)) as [J|J]; [|done].
              apply elem_of_cons in J as [->|J]; done.
Qed.

(** The keys are distinct and all present. *)
Definition removable (t : trie) (kbs : list bytes) : Prop := NoDup kbs ∧ ∀ kb, kb ∈ kbs → is_Some (t !! kb).

Lemma removable_cons t x kbs : is_Some (t !! x) → removable (delete x t) kbs ↔ removable t (x :: kbs).
Proof.
  intros S. split.
  - intros [ND P]. split.
    + constructor; [|done]. intros I. apply P in I. rewrite lookup_delete in I. by destruct I.
    + intros kb I. apply elem_of_cons in I as [->|I]; [done|].
      apply P in I. destruct I as [y I]. apply lookup_delete_Some in I as [_ I]. by exists y.
  - intros [ND P]. apply NoDup_cons in ND as [NI ND]. split; [done|].
    intros kb I. rewrite lookup_delete_ne; [apply P; by right|]. by intros <-.
Qed.

Lemma remove_cells_iff t outs t' : remove_cells t outs = Some t' ↔
  removable t (map enc_cell_key outs) ∧ t' = foldl (λ t k, delete (enc_cell_key k) t) t outs.
Proof.
  revert t. induction outs as [|x outs IH]; intros t.
  - cbn. split; [intros [= <-]|by intros [_ ->]]. split; [|done].
    split; [constructor|intros ? H; by apply elem_of_nil in H].
  - cbn [remove_cells]. unfold remove_cell, trie_remove.
    destruct (decide (is_Some (t !! enc_cell_key x))) as [S|S].
    + rewrite bool_decide_eq_true_2 by done. cbn [obind foldl map]. rewrite IH. by rewrite removable_cons.
    + rewrite bool_decide_eq_false_2 by done. cbn [obind]. split; [done|].
      intros [[_ P] _]. destruct S. apply P. by left.
Qed.

Lemma foldl_delete_lookup (t : trie) (kbs : list bytes) kb :
  foldl (λ t k, delete k t) t kbs !! kb = if decide (kb ∈ kbs) then None else t !! kb.
Proof.
  revert t. induction kbs as [|x kbs IH]; intros t; cbn [foldl].
  - destruct (decide (kb ∈ [])) as [H|]; [by apply elem_of_nil in H|done].
  - rewrite IH. destruct (decide (kb ∈ kbs)) as [I|I].
    + by rewrite decide_True by by right.
    + destruct (decide (kb = x)) as [->|NE].
      * rewrite decide_True by by left. apply lookup_delete.
      * rewrite lookup_delete_ne by done. rewrite decide_False; [done|].
        intros J. apply elem_of_cons in J as [?|?]; done.
Qed.
Lemma foldl_delete_keys (t : trie) outs :
  foldl (λ t k, delete (enc_cell_key k) t) t outs = foldl (λ t k, delete k t) t (map enc_cell_key outs).
Proof. revert t. induction outs; cbn; auto. Qed.

Lemma elem_of_enc_keys k ks : wf_key k → Forall wf_key ks → enc_cell_key k ∈ map enc_cell_key ks ↔ k ∈ ks.
Proof.
  intros W F. split.
  - intros I. apply elem_of_list_In, in_map_iff in I as (k' & E & I). apply elem_of_list_In in I.
    apply enc_cell_key_inj in E; [by subst|by eapply (proj1 (Forall_forall _ _)); eauto|done].
  - intros I. by apply elem_of_list_In, in_map, elem_of_list_In.
Qed.

Lemma foldl_delete_ok t kbs : cells_ok t → cells_ok (foldl (λ t k, delete k t) t kbs).
Proof. revert t. induction kbs; cbn; auto using cells_ok_delete. Qed.
