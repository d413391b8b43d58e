(** C106: the CKB data that is served is what was imported. *)
From Verif Require Import Bytes BytesProofs Rlp TxModel CellModel CellProofs CellProps PrecompModel PrecompProps CkbDataModel.
From stdpp Require Import base gmap.
From Coq Require Import Lia.
Local Open Scope N_scope.

(** What was imported about an out point: each call with the success it reported. *)
Fixpoint cell_told (k : cell_key) (calls : list (option call * bool)) (known : option cell) : option cell :=
  match calls with
  | [] => known
  | (Some (ImgUpdate bs), true) :: r => cell_told k r (foldl (λ c b, cell_after b k c) known bs)
  | (Some (ImgRollback us), true) :: r =>
      cell_told k r (if decide (k ∈ concat (map iu_outputs us)) then None
                     else if decide (k ∈ concat (map iu_inputs us)) then option_map (λ c, Cell_ (c_output c) (c_data c) (c_created c) None) known
                     else known)
  | _ :: r => cell_told k r known
  end.

Section Props.
  Variable blake : bytes → bytes.
  Variable henc : ckb_header → bytes.
  Variable hdec : bytes → option ckb_header.
  Hypothesis hdec_enc : ∀ h, hdec (henc h) = Some h.
  Hypothesis henc_ne : ∀ h, henc h ≠ [].

  Notation reported := (reported kh_hash henc).
  Definition wf_blocks (blocks : list (list (option call))) : Prop := Forall (λ c, match c with Some c => wf_call kh_hash c | None => True end) (concat blocks).
  (** the history: all calls of all blocks with the successes reported *)
  Definition history (blocks : list (list (option call))) : list (option call * bool) := reported ∅ (concat blocks).

  Lemma latest_root_after blocks : latest_root henc blocks = root_after kh_hash henc (concat blocks).
  Proof using.
    clear. unfold latest_root, root_after. generalize (∅ : trie). induction blocks as [|b r IH]; intros t; [done|]. cbn [foldl concat]. rewrite foldl_app. apply IH.
  Qed.

  (** The header that is served for a hash is the one last imported under it and not rolled back since. *)
  Theorem C106_header blocks k : wf_blocks blocks → length k = 32%nat →
    rpc_header henc hdec blocks k = option_map build_header (told kh_hash k (history blocks) None) ∧
    dp_extension hdec (latest_root henc blocks) k = option_map kh_extension (told kh_hash k (history blocks) None).
  Proof using hdec_enc henc_ne.
    intros W L. unfold rpc_header, dp_header, dp_extension, get_header. rewrite latest_root_after.
    pose proof (stored_told kh_hash henc henc_ne (concat blocks) k W L) as X. change (list N) with bytes in X. rewrite X. unfold history.
    destruct (told kh_hash k _ None) as [h|]; cbn [option_map]; [by rewrite hdec_enc|done].
  Qed.
  (** … with every field as it was imported *)
  Theorem C106_fields h : let p := build_header h in
    ph_version p = kh_version h ∧ ph_parent p = kh_parent h ∧ ph_timestamp p = kh_timestamp h ∧ ph_number p = kh_number h ∧ ph_epoch p = kh_epoch h ∧
    ph_txs_root p = kh_txs_root h ∧ ph_proposals p = kh_proposals h ∧ ph_extra p = kh_extra h ∧ ph_target p = kh_target h ∧ ph_dao p = kh_dao h ∧ ph_nonce p = kh_nonce h.
  Proof using. done. Qed.

  Lemma cell_told_cons k c r known : cell_told k (c :: r) known = cell_told k r (cell_told k [c] known).
  Proof using. clear. destruct c as [[[]|] []]; done. Qed.
  Lemma not_cell_key hs k h : Forall (λ h, length (kh_hash h) = 32%nat) hs → wf_key k → last (filter (λ h, kh_hash h = enc_cell_key k) hs) = Some h → False.
  Proof using.
    clear. intros W Wk E2. apply last_Some in E2 as [l E2].
    assert (h ∈ filter (λ h, kh_hash h = enc_cell_key k) hs) as I by (rewrite E2; apply elem_of_app; right; by left).
    apply elem_of_list_filter in I as [E3 I]. rewrite Forall_forall in W. pose proof (W h I) as L1.
    cbn in L1. rewrite E3, enc_cell_key_len in L1 by done. done.
  Qed.
  (** hashes in calls have 32 bytes *)
  Definition wf_call' (c : option call) : Prop :=
    match c with Some (CkbRollback ks) => Forall (λ k, length k = 32%nat) ks | Some c => wf_call kh_hash c | None => True end.
  Lemma wf_call_weaken c : wf_call' c → match c with Some c => wf_call kh_hash c | None => True end.
  Proof using. clear. by destruct c as [[]|]. Qed.
  Lemma cell_step t c k known : cells_ok t → wf_call' c → wf_key k → get_cell t k = Some known →
    get_cell (cell_exec kh_hash henc t c).1 k = Some (cell_told k [(c, (cell_exec kh_hash henc t c).2)] known) ∧ cells_ok (cell_exec kh_hash henc t c).1.
  Proof using henc_ne.
    clear hdec_enc. intros K W Wk E. destruct c as [[]|]; cbn [cell_exec] in *; try (split; [exact E|exact K]).
    - cbn. split.
      + unfold get_cell in *. rewrite hdr_update_lookup by done.
        destruct (last (filter (λ h, kh_hash h = enc_cell_key k) hs)) as [h|] eqn:E2; [|done]. exfalso. apply (not_cell_key hs k h W Wk E2).
      + intros k' b Wk' E'. rewrite hdr_update_lookup in E' by done.
        destruct (last (filter (λ h, kh_hash h = enc_cell_key k') hs)) as [h|] eqn:E2; [|by apply (K k')]. exfalso. apply (not_cell_key hs k' h W Wk' E2).
    - destruct (hdr_rollback t ks) as [t'|] eqn:E'; [|done]. apply hdr_rollback_iff in E' as [_ ->]. cbn.
      split; [|by apply foldl_delete_ok]. unfold get_cell in *. rewrite foldl_delete_lookup. case_decide as I; [|exact E].
      exfalso. cbn in W. rewrite Forall_forall in W. apply W in I. cbn in I. rewrite enc_cell_key_len in I by done. done.
    - destruct (img_update_spec t bs K W) as (t' & -> & K' & _ & G). cbn. split; [|done]. rewrite G by done. rewrite E. done.
    - destruct (img_rollback t bs) as [t'|] eqn:E'; [|done]. cbn. pose proof (img_rollback_removable _ _ _ K W E') as R.
      destruct (img_rollback_spec t bs K W R) as (t2 & E2 & K2 & _ & G). rewrite E' in E2. injection E2 as ->. split; [|done].
      rewrite G by done. rewrite E. repeat case_decide; done.
  Qed.
  Lemma cell_stored calls k : Forall wf_call' calls → wf_key k → get_cell (root_after kh_hash henc calls) k = Some (cell_told k (reported ∅ calls) None).
  Proof using henc_ne.
    clear hdec_enc. intros W Wk. unfold root_after. assert (K : cells_ok ∅) by (intros k' b _ E; by rewrite lookup_empty in E).
    assert (E : get_cell ∅ k = Some None) by done. revert K E. generalize (∅ : trie), (None : option cell).
    induction calls as [|c calls IH]; intros t known K E; [done|]. apply Forall_cons in W as [Wc W]. cbn [foldl PrecompProps.reported]. rewrite cell_told_cons.
    destruct (cell_step t c k known K Wc Wk E) as [E' K']. by apply IH.
  Qed.

  (** A cell that is served is the one that was imported: its output and its data; none is served for an out point that was never created or whose creation was
      rolled back.  Programs get the same data as clients. *)
  Theorem C106_cell_partial blocks k d : Forall wf_call' (concat blocks) → wf_key k →
    rpc_cell blake henc blocks k d =
      option_map (λ c, CellInfo (c_output c) (if d then Some (blake (c_data c), c_data c) else None)) (cell_told k (history blocks) None) ∧
    dp_cell_data (latest_root henc blocks) k = option_map c_data (cell_told k (history blocks) None).
  Proof using henc_ne.
    clear hdec_enc. intros W Wk. unfold rpc_cell, dp_cell, dp_cell_data. rewrite latest_root_after, (cell_stored (concat blocks) k W Wk).
    unfold history. cbn [ok_flat]. destruct (cell_told k _ None) as [c|]; done.
  Qed.
  (** What programs get beside the data: the output, the length and the hash of the data. *)
  Theorem C106_meta blocks k : Forall wf_call' (concat blocks) → wf_key k →
    match cell_told k (history blocks) None with
    | None => dp_cell blake (latest_root henc blocks) k = Unknown ∧ dp_cell_data_hash blake (latest_root henc blocks) k = None
    | Some c => ∃ m, dp_cell blake (latest_root henc blocks) k = Live m ∧ cm_output m = c_output c ∧ cm_data m = c_data c ∧ cm_len m = len (c_data c) ∧
        dp_cell_data_hash blake (latest_root henc blocks) k = Some (cm_data_hash m) ∧
        (c_data c ≠ [] → cm_data_hash m = blake (c_data c)) ∧ (c_data c = [] → cm_data_hash m = repeat 0 32)
    end.
  Proof using henc_ne.
    clear hdec_enc. intros W Wk. unfold dp_cell_data_hash, dp_cell, dp_cell_data. rewrite latest_root_after, (cell_stored (concat blocks) k W Wk).
    unfold history. cbn [ok_flat]. destruct (cell_told k _ None) as [c|]; [|done]. eexists. split; [reflexivity|]. cbn [into_meta cm_output cm_data cm_len cm_data_hash].
    split; [done|]. split; [done|]. split; [done|]. split; [done|]. unfold cell_data_hash. split; intros X; [by destruct (c_data c)|by rewrite X].
  Qed.
End Props.

(* ---------------------------------------------------------------- *)
(** * Examples and findings *)

(** a codec that meets the hypotheses *)
#[global] Instance ckb_header_eq_dec : EqDecision ckb_header.
Proof. solve_decision. Defined.
#[global] Instance ckb_header_countable : Countable ckb_header.
Proof.
  refine (inj_countable' (λ h, ((kh_version h, kh_target h, kh_timestamp h, kh_number h, kh_epoch h, kh_parent h, kh_txs_root h), (kh_proposals h, kh_extra h, kh_dao h, kh_nonce h, kh_extension h, kh_hash h)))
    (λ x, match x with ((a, b, c, d, e, f, g), (h, i, j, k, l, m)) => CkbHeader_ a b c d e f g h i j k l m end) _).
  by intros [].
Qed.
Definition ex_henc (h : ckb_header) : bytes := [1; Npos (encode h)].
Definition ex_hdec (b : bytes) : option ckb_header := match b with [1; Npos p] => decode p | _ => None end.
Example C106_codec : (∀ h, ex_hdec (ex_henc h) = Some h) ∧ ∀ h, ex_henc h ≠ [].
Proof. split; [|done]. intros h. unfold ex_hdec, ex_henc. apply decode_encode. Qed.

Definition ex_header (n : N) (hash : bytes) : ckb_header :=
  CkbHeader_ 0 1 2 n 4 (repeat 5 32) (repeat 6 32) (repeat 7 32) (repeat 8 32) (repeat 9 32) 10 [] hash.
Definition ex_blocks : list (list (option call)) :=
  [[Some (CkbUpdate [ex_header 1 (repeat 1 32); ex_header 2 (repeat 2 32)]); Some (ImgUpdate [blk1])]; [None; Some (CkbRollback [repeat 2 32])]; [Some (ImgUpdate [blk2])]].
Lemma ex_blocks_wf : Forall wf_call' (concat ex_blocks).
Proof.
  assert (wf_key key1 ∧ wf_key key2) as [W1 W2].
  { split; (split; [split; [apply wf_bytesb_spec; vm_compute; reflexivity|reflexivity]|vm_compute; reflexivity]). }
  repeat constructor; try (apply wf_bytesb_spec; vm_compute; reflexivity); try (vm_compute; reflexivity); try (exact W1); try (exact W2); try apply W1; try apply W2.
Qed.
Example C106_example blake : Forall wf_call' (concat ex_blocks) ∧ wf_blocks ex_blocks ∧
  option_map ph_number (rpc_header ex_henc ex_hdec ex_blocks (repeat 1 32)) = Some 1 ∧ rpc_header ex_henc ex_hdec ex_blocks (repeat 2 32) = None ∧
  rpc_cell blake ex_henc ex_blocks key2 true = Some (CellInfo [4] (Some (blake [], []))) ∧ rpc_cell blake ex_henc ex_blocks (CellKey_ (repeat 3 32) 0) true = None.
Proof.
  assert (W := ex_blocks_wf). split; [done|]. assert (W' : wf_blocks ex_blocks).
  { unfold wf_blocks. eapply Forall_impl; [exact W|]. intros c H. by apply wf_call_weaken in H. }
  split; [done|]. destruct C106_codec as [C1 C2].
  assert (W1 : wf_key key2) by (split; [split; [apply wf_bytesb_spec; vm_compute; reflexivity|reflexivity]|vm_compute; reflexivity]).
  assert (W3 : wf_key (CellKey_ (repeat 3 32) 0)) by (split; [split; [apply wf_bytesb_spec; vm_compute; reflexivity|reflexivity]|vm_compute; reflexivity]).
  rewrite (proj1 (C106_header ex_henc ex_hdec C1 C2 ex_blocks (repeat 1 32) W' eq_refl)), (proj1 (C106_header ex_henc ex_hdec C1 C2 ex_blocks (repeat 2 32) W' eq_refl)).
  rewrite (proj1 (C106_cell_partial blake ex_henc C2 ex_blocks _ true W W1)), (proj1 (C106_cell_partial blake ex_henc C2 ex_blocks _ true W W3)).
  repeat split; vm_compute; reflexivity.
Qed.

(** Finding: a cell that a later block consumed is still served, and still given to programs as a live cell. *)
Theorem C106_live_refuted blake henc : (∀ h, henc h ≠ []) → ∃ blocks k c i m, cell_told k (history henc blocks) None = Some c ∧ c_consumed c = Some 11 ∧
  rpc_cell blake henc blocks k true = Some i ∧ dp_cell blake (latest_root henc blocks) k = Live m ∧ dp_cell_data (latest_root henc blocks) k = Some [9].
Proof.
  intros Hne. exists [[Some (ImgUpdate [blk1])]; [Some (ImgUpdate [blk2])]], key1. eexists _, _, _.
  split; [vm_compute; reflexivity|]. split; [reflexivity|]. split; [vm_compute; reflexivity|]. split; vm_compute; reflexivity.
Qed.
(** Finding: the hash under which a header is imported is not compared with the header: whatever the hash of a header is, a header can be served for a hash that
    is not its own. *)
Theorem C106_hash_refuted (ckb_hash : packed_header → bytes) henc hdec : (∀ h, hdec (henc h) = Some h) → (∀ h, henc h ≠ []) →
  ∃ blocks k p, wf_blocks blocks ∧ length k = 32%nat ∧ rpc_header henc hdec blocks k = Some p ∧ ckb_hash p ≠ k.
Proof.
  intros C1 C2.
  assert (X : ∀ k, length k = 32%nat → wf_blocks [[Some (CkbUpdate [ex_header 1 k])]] ∧ rpc_header henc hdec [[Some (CkbUpdate [ex_header 1 k])]] k = Some (build_header (ex_header 1 k))).
  { intros k L. assert (W : wf_blocks [[Some (CkbUpdate [ex_header 1 k])]]) by by repeat constructor. split; [done|].
    rewrite (proj1 (C106_header henc hdec C1 C2 _ k W L)). unfold history. cbn. by rewrite decide_True. }
  destruct (decide (ckb_hash (build_header (ex_header 1 [])) = repeat 1 32)) as [E|E].
  - exists [[Some (CkbUpdate [ex_header 1 (repeat 2 32)])]], (repeat 2 32). eexists. destruct (X (repeat 2 32) eq_refl) as [W ->]. split; [done|]. split; [done|]. split; [done|].
    change (build_header (ex_header 1 (repeat 2 32))) with (build_header (ex_header 1 [])). rewrite E. discriminate.
  - exists [[Some (CkbUpdate [ex_header 1 (repeat 1 32)])]], (repeat 1 32). eexists. destruct (X (repeat 1 32) eq_refl) as [W ->]. split; [done|]. split; [done|]. split; [done|]. exact E.
Qed.
(** Finding: clients and programs are told different hashes of empty data: the RPC hashes the empty string, CKB and the programs have zero. *)
Theorem C106_empty_refuted blake henc : blake [] ≠ repeat 0 32 → ∃ blocks k o h h',
  rpc_cell blake henc blocks k true = Some (CellInfo o (Some (h, []))) ∧ dp_cell_data_hash blake (latest_root henc blocks) k = Some h' ∧ h ≠ h'.
Proof.
  intros H. exists [[Some (ImgUpdate [blk2])]], key2. eexists _, _, _. split; [vm_compute; reflexivity|]. split; [vm_compute; reflexivity|]. exact H.
Qed.
(** Finding: a block without an extension is given to programs as one with an empty extension. *)
Theorem C106_extension_refuted henc hdec : (∀ h, hdec (henc h) = Some h) → (∀ h, henc h ≠ []) → ∃ blocks k, wf_blocks blocks ∧
  dp_extension hdec (latest_root henc blocks) k = Some [].
Proof.
  intros C1 C2. exists [[Some (CkbUpdate [ex_header 1 (repeat 1 32)])]], (repeat 1 32).
  assert (W : wf_blocks [[Some (CkbUpdate [ex_header 1 (repeat 1 32)])]]) by by repeat constructor. split; [done|].
  rewrite (proj2 (C106_header henc hdec C1 C2 _ (repeat 1 32) W eq_refl)). reflexivity.
Qed.

Print Assumptions C106_meta.
Print Assumptions C106_header.
Print Assumptions C106_fields.
Print Assumptions C106_cell_partial.
Print Assumptions C106_live_refuted.
Print Assumptions C106_hash_refuted.
Print Assumptions C106_empty_refuted.
Print Assumptions C106_extension_refuted.
