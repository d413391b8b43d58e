(** Lemmas about the transaction codec. *)
From Verif Require Import Bytes BytesProofs Rlp RlpProofs TxModel TxSpec.

(* ---------------- generic list access ---------------- *)
Lemma val_at_list {A} (f : bytes -> option A) items i x :
  Forall is_item items -> len (concat items) < 2^64 -> nth_error items i = Some x ->
  val_at f (enc_list items) i = f x.
Proof. intros H L E. unfold val_at, at_. rewrite view_items_list, E by assumption. reflexivity. Qed.

Lemma at_list items i :
  Forall is_item items -> len (concat items) < 2^64 ->
  at_ (enc_list items) i = nth_error items i.
Proof. intros H L. unfold at_. now rewrite view_items_list. Qed.

Lemma at_restart_list items i :
  Forall is_item items -> len (concat items) < 2^64 ->
  at_restart (enc_list items) i = nth_error items i.
Proof.
  intros H L. unfold at_restart. rewrite <- (app_nil_r (enc_list items)), inner_items_list by assumption.
  reflexivity.
Qed.

Lemma enc_list_inj a b :
  Forall is_item a -> Forall is_item b -> len (concat a) < 2^64 -> len (concat b) < 2^64 ->
  enc_list a = enc_list b -> a = b.
Proof.
  intros Ha Hb La Lb E. apply (f_equal view_items) in E.
  now rewrite !view_items_list in E by assumption.
Qed.

(* ---------------- field codecs ---------------- *)
Lemma u64_pow n : u64_ok n -> n < 256 ^ N.of_nat 8.
Proof. unfold u64_ok. change (256 ^ N.of_nat 8) with (2^64). auto. Qed.
Lemma u256_pow n : u256_ok n -> n < 256 ^ N.of_nat 32.
Proof. unfold u256_ok. change (256 ^ N.of_nat 32) with (2^256). auto. Qed.
Lemma u8_pow n : n < 256 -> n < 256 ^ N.of_nat 1.
Proof. change (256 ^ N.of_nat 1) with 256. auto. Qed.

Lemma item_u64 n : u64_ok n -> is_item (enc_uint n).
Proof. intros H. apply (is_item_uint n 8); [now apply u64_pow|lia]. Qed.
Lemma item_u256 n : u256_ok n -> is_item (enc_uint n).
Proof. intros H. apply (is_item_uint n 32); [now apply u256_pow|lia]. Qed.
Lemma item_u8 n : n < 256 -> is_item (enc_uint n).
Proof. intros H. apply (is_item_uint n 1); [now apply u8_pow|lia]. Qed.
Lemma dec_u64 n : u64_ok n -> dec_uint 8 (enc_uint n) = Some n.
Proof. intros. apply dec_uint_enc; [now apply u64_pow|lia]. Qed.
Lemma dec_u256 n : u256_ok n -> dec_uint 32 (enc_uint n) = Some n.
Proof. intros. apply dec_uint_enc; [now apply u256_pow|lia]. Qed.
Lemma dec_u8 n : n < 256 -> dec_uint 1 (enc_uint n) = Some n.
Proof. intros. apply dec_uint_enc; [now apply u8_pow|lia]. Qed.

Lemma fixed_len k b : fixed k b -> len b = N.of_nat k.
Proof. intros [_ H]. unfold len. now rewrite H. Qed.

Lemma item_fixed k b : fixed k b -> N.of_nat k < 2^64 -> is_item (enc_str b).
Proof. intros F K. apply is_item_str; [apply F|]. now rewrite (fixed_len k). Qed.
Lemma dec_fixed k b : fixed k b -> N.of_nat k < 2^64 -> dec_hash k (enc_hash b) = Some b.
Proof. intros [W L] K. now apply dec_hash_enc. Qed.

Lemma item_action a : wf_action a -> is_item (enc_action a).
Proof.
  destruct a as [t|]; cbn [wf_action enc_action]; intros H.
  - apply (item_fixed 20); [exact H|lia].
  - apply is_item_str; [constructor|rewrite len_nil; lia].
Qed.
Lemma dec_action_enc a : wf_action a -> dec_action (enc_action a) = Some a.
Proof.
  destruct a as [t|]; cbn [wf_action enc_action]; intros H; [|reflexivity].
  unfold dec_action.
  assert (is_empty_item (enc_str t) = false) as ->.
  { destruct H as [_ L]. destruct t as [|x [|y r]]; try discriminate L.
    unfold enc_str, enc_header, len. rewrite L. reflexivity. }
  change (enc_str t) with (enc_hash t). rewrite (dec_fixed 20) by (auto; lia). reflexivity.
Qed.

Lemma item_access_item a :
  len (enc_access_item a) < 2^64 -> is_item (enc_access_item a).
Proof.
  unfold enc_access_item. intros L. apply is_item_list.
  eapply N.le_lt_trans; [apply enc_list_len|exact L].
Qed.

Lemma keys_items ks : Forall (fixed 32) ks -> Forall is_item (map enc_hash ks).
Proof.
  intros H. apply Forall_map. eapply Forall_impl; [|exact H].
  intros b Hb. apply (item_fixed 32); [exact Hb|lia].
Qed.

Lemma dec_access_item_enc a :
  wf_access_item a -> len (enc_access_item a) < 2^64 ->
  dec_access_item (enc_access_item a) = Some a.
Proof.
  intros [Ha Hk] L. unfold enc_access_item in *.
  set (ks := enc_list (map enc_hash (ai_keys a))) in *.
  assert (len (concat [enc_hash (ai_address a); ks]) < 2^64) as LC
    by (eapply N.le_lt_trans; [apply enc_list_len|exact L]).
  assert (len ks < 2^64) as LK.
  { eapply N.le_lt_trans; [apply (concat_len_in ks)|exact LC]. right; now left. }
  assert (len (concat (map enc_hash (ai_keys a))) < 2^64) as LKK
    by (eapply N.le_lt_trans; [apply enc_list_len|exact LK]).
  assert (Forall is_item [enc_hash (ai_address a); ks]) as HI.
  { constructor; [apply (item_fixed 20); [exact Ha|lia]|]. constructor; [|constructor].
    now apply is_item_list. }
  unfold dec_access_item. rewrite item_count_list by assumption. cbn [length obind Nat.eqb].
  rewrite (val_at_list _ _ 0 _ HI LC eq_refl), (val_at_list _ _ 1 _ HI LC eq_refl).
  rewrite (dec_fixed 20) by (auto; lia). cbn [obind].
  unfold ks. rewrite dec_list_enc.
  - cbn [obind]. now destruct a.
  - intros b Hb. rewrite Forall_forall in Hk. specialize (Hk b Hb). split.
    + apply (item_fixed 32); [exact Hk|lia].
    + apply (dec_fixed 32); [exact Hk|lia].
  - exact LKK.
Qed.

Lemma item_access l : len (enc_access l) < 2^64 -> is_item (enc_access l).
Proof.
  unfold enc_access. intros L. apply is_item_list.
  eapply N.le_lt_trans; [apply enc_list_len|exact L].
Qed.

Lemma dec_access_enc l :
  Forall wf_access_item l -> len (enc_access l) < 2^64 -> dec_access (enc_access l) = Some l.
Proof.
  intros H L. unfold enc_access in *.
  assert (len (concat (map enc_access_item l)) < 2^64) as LC
    by (eapply N.le_lt_trans; [apply enc_list_len|exact L]).
  assert (forall a, In a l -> len (enc_access_item a) < 2^64) as LA.
  { intros a Ha. eapply N.le_lt_trans; [apply concat_len_in, in_map, Ha|exact LC]. }
  unfold dec_access. rewrite item_count_list; [|apply Forall_forall|exact LC].
  - cbn [obind]. apply dec_list_enc; [|exact LC].
    intros a Ha. rewrite Forall_forall in H. split.
    + apply item_access_item, LA, Ha.
    + apply dec_access_item_enc; auto.
  - intros b Hb. apply in_map_iff in Hb as (a & <- & Ha). apply item_access_item, LA, Ha.
Qed.

(* ---------------- signature ---------------- *)
Definition rs_items (s : sigc) : bytes * bytes :=
  if is_eth_sig s then
    (enc_uint (be_val (truncate_slice (sg_r s) 32)), enc_uint (be_val (truncate_slice (sg_s s) 32)))
  else (enc_str (sg_r s), enc_str (sg_s s)).
Lemma enc_rs_items s : enc_rs s = [fst (rs_items s); snd (rs_items s)].
Proof. unfold enc_rs, rs_items. now destruct (is_eth_sig s). Qed.

Lemma truncate_32 b : length b = 32%nat -> truncate_slice b 32 = b.
Proof. intros H. unfold truncate_slice. rewrite H. reflexivity. Qed.

Lemma be_val_256 b : fixed 32 b -> u256_ok (be_val b).
Proof.
  intros [W L]. unfold u256_ok. pose proof (be_val_bound b W) as B.
  rewrite L in B. exact B.
Qed.

Lemma wf_sig_cases s :
  wf_sig s ->
  (is_eth_sig s = true /\ fixed 32 (sg_r s) /\ fixed 32 (sg_s s)) \/
  (is_eth_sig s = false /\ (64 < length (sg_r s) + length (sg_s s))%nat).
Proof.
  intros (Wr & Ws & _ & [[Lr Ls]|L]); [left|right].
  - unfold is_eth_sig, sig_len. rewrite Lr, Ls. repeat split; auto.
  - split; [|exact L]. unfold is_eth_sig, sig_len. apply Nat.eqb_neq. lia.
Qed.

Lemma rs_item s :
  wf_sig s -> len (sg_r s) < 2^64 -> len (sg_s s) < 2^64 ->
  is_item (fst (rs_items s)) /\ is_item (snd (rs_items s)).
Proof.
  intros W Lr Ls. unfold rs_items. pose proof W as (Wr & Ws & _).
  destruct (wf_sig_cases s W) as [(-> & Fr & Fs)|(-> & _)]; cbn [fst snd].
  - rewrite !truncate_32 by (apply Fr || apply Fs).
    split; apply item_u256, be_val_256; assumption.
  - split; apply is_item_str; assumption.
Qed.

Lemma size_uint n : u256_ok n -> (size_ (enc_uint n) <= 32)%nat.
Proof.
  intros H. unfold enc_uint. rewrite <- (app_nil_r (enc_str (be_min n))), size_str.
  - rewrite be_min_length. apply nbytes_le. now apply u256_pow.
  - apply be_min_wf.
  - apply (len_be_min _ 32); [now apply u256_pow|lia].
Qed.

Lemma dec_rs_list items off s :
  Forall is_item items -> len (concat items) < 2^64 ->
  nth_error items (off + 1) = Some (fst (rs_items s)) ->
  nth_error items (off + 2) = Some (snd (rs_items s)) ->
  wf_sig s -> len (sg_r s) < 2^64 -> len (sg_s s) < 2^64 ->
  dec_rs (enc_list items) off = Some (sg_r s, sg_s s).
Proof.
  intros HI LC E1 E2 W Lr Ls. unfold dec_rs.
  rewrite !at_list, at_restart_list, E1, E2 by assumption. cbn [obind].
  rewrite !(val_at_list _ _ _ _ HI LC E2).
  pose proof W as (Wr & Ws & _).
  unfold rs_items. destruct (wf_sig_cases s W) as [(-> & Fr & Fs)|(-> & L)]; cbn [fst snd].
  - rewrite !truncate_32 by (apply Fr || apply Fs).
    pose proof (size_uint _ (be_val_256 _ Fr)). pose proof (size_uint _ (be_val_256 _ Fs)).
    rewrite (proj2 (Nat.leb_le _ _)) by lia.
    rewrite !dec_u256 by (apply be_val_256; assumption). cbn [obind].
    destruct Fr as [_ Lr'], Fs as [_ Ls'].
    rewrite <- Lr' at 1. rewrite <- Ls' at 1. now rewrite !be_fixed_val.
  - rewrite <- (app_nil_r (enc_str (sg_r s))), <- (app_nil_r (enc_str (sg_s s))), !size_str by assumption.
    rewrite (proj2 (Nat.leb_gt _ _)) by lia.
    rewrite !app_nil_r, !dec_value_str0 by assumption. reflexivity.
Qed.

(* ---------------- lengths of components ---------------- *)
Lemma len_str_in b items : In (enc_str b) items -> len (concat items) < 2^64 -> len b < 2^64.
Proof.
  intros H L. eapply N.le_lt_trans; [apply enc_str_len|].
  eapply N.le_lt_trans; [apply concat_len_in, H|exact L].
Qed.
Lemma len_in b items : In b items -> len (concat items) < 2^64 -> len b < 2^64.
Proof. intros H L. eapply N.le_lt_trans; [apply concat_len_in, H|exact L]. Qed.

Lemma sig_lens s items :
  wf_sig s -> In (fst (rs_items s)) items -> In (snd (rs_items s)) items ->
  len (concat items) < 2^64 -> len (sg_r s) < 2^64 /\ len (sg_s s) < 2^64.
Proof.
  intros W H1 H2 L. unfold rs_items in *.
  destruct (wf_sig_cases s W) as [(E & Fr & Fs)|(E & _)]; rewrite E in *; cbn [fst snd] in *.
  - rewrite !(fixed_len 32) by assumption. split; lia.
  - split; eapply len_str_in; eauto.
Qed.

(* ---------------- legacy v ---------------- *)
Lemma replay_ok v c :
  v < 2 -> match c with Some c => c * 2 + 36 < 2^64 | None => True end ->
  u64_ok (v + match c with Some i => i * 2 + 35 | None => 27 end) /\
  extract_standard_v (v + match c with Some i => i * 2 + 35 | None => 27 end) = Some v /\
  extract_chain_id (v + match c with Some i => i * 2 + 35 | None => 27 end) = c.
Proof.
  intros Hv Hc. unfold u64_ok, extract_standard_v, extract_chain_id.
  destruct c as [c|].
  - repeat split; [lia| |].
    + destruct (_ =? 27) eqn:E1; [lia|]. destruct (_ =? 28) eqn:E2; [lia|].
      destruct (35 <=? _) eqn:E3; [|lia]. f_equal. lia.
    + destruct (35 <=? _) eqn:E3; [|lia]. f_equal. lia.
  - assert (v = 0 \/ v = 1) as [->| ->] by lia; repeat split; lia.
Qed.

Ltac in_tac := cbn [In app]; tauto.

(* ---------------- round trips ---------------- *)
Ltac item_tac :=
  repeat (apply Forall_cons || apply Forall_nil);
  first [ apply item_u64; assumption | apply item_u256; assumption
        | apply item_action; assumption | assumption | idtac ].

Section RoundTrip.
Variable keccak : bytes -> bytes.

Lemma dec_legacy_enc t s c :
  wf_unsigned (Legacy t) -> wf_sig s -> wf_chain_v (Legacy t) c (sg_v s) ->
  len (enc_unsigned (Legacy t) c (Some s)) < 2^64 ->
  dec_legacy keccak (enc_unsigned (Legacy t) c (Some s)) =
  Some (Utx (Legacy t) (Some s) c (keccak (enc_unsigned (Legacy t) c (Some s)))).
Proof.
  intros (Hn & Hp & Hg & Ha & Hv & Hd) Ws [V2 Hc] L. cbn [enc_unsigned] in *.
  destruct (replay_ok (sg_v s) c V2 Hc) as (R64 & RV & RC).
  assert (len (concat (legacy_items t c (Some s))) < 2^64) as LC
    by (eapply N.le_lt_trans; [apply enc_list_len|exact L]).
  assert (legacy_items t c (Some s) =
    [enc_uint (l_nonce t); enc_uint (l_gas_price t); enc_uint (l_gas_limit t);
     enc_action (l_action t); enc_uint (l_value t); enc_str (l_data t);
     enc_uint (replay_v s c); fst (rs_items s); snd (rs_items s)]) as EI
    by (unfold legacy_items; now rewrite enc_rs_items).
  assert (len (l_data t) < 2^64) as Ld
    by (eapply len_str_in; [|exact LC]; rewrite EI; in_tac).
  destruct (sig_lens s (legacy_items t c (Some s))) as [Lr Ls]; auto;
    [rewrite EI; in_tac|rewrite EI; in_tac|].
  destruct (rs_item s Ws Lr Ls) as [Ir Is].
  assert (Forall is_item (legacy_items t c (Some s))) as HI.
  { rewrite EI. item_tac. apply is_item_str; assumption. }
  unfold dec_legacy. rewrite item_count_list by assumption.
  rewrite EI at 1. cbn [length obind Nat.eqb].
  pose proof (fun A f i x => @val_at_list A f _ i x HI LC) as V.
  rewrite (V _ _ 0%nat _ eq_refl), (V _ _ 1%nat _ eq_refl), (V _ _ 2%nat _ eq_refl),
    (V _ _ 3%nat _ eq_refl), (V _ _ 4%nat _ eq_refl), (V _ _ 5%nat _ eq_refl), (V _ _ 6%nat _ eq_refl).
  rewrite !dec_u64 by assumption. cbn [obind].
  rewrite dec_action_enc by assumption. cbn [obind].
  rewrite dec_u256 by assumption. cbn [obind].
  rewrite dec_value_str0 by assumption. cbn [obind].
  unfold dec_sig_legacy, replay_v. rewrite RV. cbn [obind].
  rewrite (dec_rs_list _ 6 s) by (assumption || (rewrite EI; reflexivity)).
  cbn [obind]. rewrite RC. destruct t, s; reflexivity.
Qed.

Lemma dec_eip2930_enc t s c :
  wf_unsigned (Eip2930 t) -> wf_sig s -> u64_ok c ->
  len (enc_list (eip2930_items t (Some c) (Some s))) < 2^64 ->
  dec_eip2930 keccak (enc_list (eip2930_items t (Some c) (Some s))) =
  Some (Utx (Eip2930 t) (Some s) (Some c) (keccak (enc_unsigned (Eip2930 t) (Some c) (Some s)))).
Proof.
  intros (Hn & Hp & Hg & Ha & Hv & Hd & Hl) Ws Hc L. cbn [enc_unsigned] in *.
  assert (len (concat (eip2930_items t (Some c) (Some s))) < 2^64) as LC
    by (eapply N.le_lt_trans; [apply enc_list_len|exact L]).
  assert (eip2930_items t (Some c) (Some s) =
    [enc_uint c; enc_uint (e_nonce t); enc_uint (e_gas_price t); enc_uint (e_gas_limit t);
     enc_action (e_action t); enc_uint (e_value t); enc_str (e_data t); enc_access (e_access t);
     enc_uint (sg_v s); fst (rs_items s); snd (rs_items s)]) as EI
    by (unfold eip2930_items, sig_items, enc_sig; now rewrite enc_rs_items).
  assert (len (e_data t) < 2^64) as Ld
    by (eapply len_str_in; [|exact LC]; rewrite EI; in_tac).
  assert (len (enc_access (e_access t)) < 2^64) as La
    by (eapply len_in; [|exact LC]; rewrite EI; in_tac).
  destruct (sig_lens s (eip2930_items t (Some c) (Some s))) as [Lr Ls]; auto;
    [rewrite EI; in_tac|rewrite EI; in_tac|].
  destruct (rs_item s Ws Lr Ls) as [Ir Is].
  pose proof Ws as (_ & _ & V8 & _).
  assert (Forall is_item (eip2930_items t (Some c) (Some s))) as HI.
  { rewrite EI. item_tac.
    - apply is_item_str; assumption.
    - apply item_access; assumption.
    - apply item_u8; assumption. }
  unfold dec_eip2930. rewrite item_count_list by assumption.
  rewrite EI at 1. cbn [length obind Nat.eqb].
  pose proof (fun A f i x => @val_at_list A f _ i x HI LC) as V.
  rewrite (V _ _ 0%nat _ eq_refl), (V _ _ 1%nat _ eq_refl), (V _ _ 2%nat _ eq_refl),
    (V _ _ 3%nat _ eq_refl), (V _ _ 4%nat _ eq_refl), (V _ _ 5%nat _ eq_refl), (V _ _ 6%nat _ eq_refl),
    (V _ _ 7%nat _ eq_refl).
  rewrite !dec_u64 by assumption. cbn [obind].
  rewrite dec_action_enc by assumption. cbn [obind].
  rewrite dec_u256 by assumption. cbn [obind].
  rewrite dec_value_str0 by assumption. cbn [obind].
  rewrite dec_access_enc by assumption. cbn [obind].
  unfold dec_sig_typed. rewrite (V _ _ 8%nat _ eq_refl), dec_u8 by assumption. cbn [obind].
  rewrite (dec_rs_list _ 8 s) by (assumption || (rewrite EI; reflexivity)).
  cbn [obind]. destruct t, s; reflexivity.
Qed.

Lemma dec_eip1559_enc t s c :
  wf_unsigned (Eip1559 t) -> wf_sig s -> u64_ok c ->
  len (enc_list (eip1559_items t (Some c) (Some s))) < 2^64 ->
  dec_eip1559 keccak (enc_list (eip1559_items t (Some c) (Some s))) =
  Some (Utx (Eip1559 t) (Some s) (Some c) (keccak (enc_unsigned (Eip1559 t) (Some c) (Some s)))).
Proof.
  intros (Hn & Hm & Hp & Hg & Ha & Hv & Hd & Hl) Ws Hc L. cbn [enc_unsigned] in *.
  assert (len (concat (eip1559_items t (Some c) (Some s))) < 2^64) as LC
    by (eapply N.le_lt_trans; [apply enc_list_len|exact L]).
  assert (eip1559_items t (Some c) (Some s) =
    [enc_uint c; enc_uint (f_nonce t); enc_uint (f_max_prio t); enc_uint (f_gas_price t);
     enc_uint (f_gas_limit t);
     enc_action (f_action t); enc_uint (f_value t); enc_str (f_data t); enc_access (f_access t);
     enc_uint (sg_v s); fst (rs_items s); snd (rs_items s)]) as EI
    by (unfold eip1559_items, sig_items, enc_sig; now rewrite enc_rs_items).
  assert (len (f_data t) < 2^64) as Ld
    by (eapply len_str_in; [|exact LC]; rewrite EI; in_tac).
  assert (len (enc_access (f_access t)) < 2^64) as La
    by (eapply len_in; [|exact LC]; rewrite EI; in_tac).
  destruct (sig_lens s (eip1559_items t (Some c) (Some s))) as [Lr Ls]; auto;
    [rewrite EI; in_tac|rewrite EI; in_tac|].
  destruct (rs_item s Ws Lr Ls) as [Ir Is].
  pose proof Ws as (_ & _ & V8 & _).
  assert (Forall is_item (eip1559_items t (Some c) (Some s))) as HI.
  { rewrite EI. item_tac.
    - apply is_item_str; assumption.
    - apply item_access; assumption.
    - apply item_u8; assumption. }
  unfold dec_eip1559. rewrite item_count_list by assumption.
  rewrite EI at 1. cbn [length obind Nat.eqb].
  pose proof (fun A f i x => @val_at_list A f _ i x HI LC) as V.
  rewrite (V _ _ 0%nat _ eq_refl), (V _ _ 1%nat _ eq_refl), (V _ _ 2%nat _ eq_refl),
    (V _ _ 3%nat _ eq_refl), (V _ _ 4%nat _ eq_refl), (V _ _ 5%nat _ eq_refl), (V _ _ 6%nat _ eq_refl),
    (V _ _ 7%nat _ eq_refl), (V _ _ 8%nat _ eq_refl).
  rewrite !dec_u64 by assumption. cbn [obind].
  rewrite dec_action_enc by assumption. cbn [obind].
  rewrite dec_u256 by assumption. cbn [obind].
  rewrite dec_value_str0 by assumption. cbn [obind].
  rewrite dec_access_enc by assumption. cbn [obind].
  unfold dec_sig_typed. rewrite (V _ _ 9%nat _ eq_refl), dec_u8 by assumption. cbn [obind].
  rewrite (dec_rs_list _ 9 s) by (assumption || (rewrite EI; reflexivity)).
  cbn [obind]. destruct t, s; reflexivity.
Qed.

Lemma enc_list_head items : exists h r, enc_list items = h :: r /\ 192 <= h.
Proof.
  unfold enc_list, enc_header. destruct (_ <? 56) eqn:E; cbn [app]; eexists _, _; split;
    try reflexivity; lia.
Qed.

Lemma roundtrip_utx t :
  wf_signed_utx t -> len (enc_utx t) < 2^64 -> u_hash t = keccak (enc_utx t) ->
  dec_utx keccak (enc_utx t) = Ok t.
Proof.
  destruct t as [u sg c h]. intros [Wu Hs] L Hh. cbn [u_unsigned u_sig u_chain u_hash enc_utx] in *.
  unfold enc_utx in *. cbn [u_unsigned u_sig u_chain] in *.
  destruct sg as [s|]; [|easy]. destruct Hs as [Ws Wc].
  destruct u as [t|t|t].
  - pose proof (dec_legacy_enc t s c Wu Ws Wc L) as D.
    destruct (enc_list_head (legacy_items t c (Some s))) as (x & r & E & Hx).
    cbn [enc_unsigned] in *. unfold dec_utx. rewrite E in *.
    destruct (128 <=? x) eqn:F; [|lia]. rewrite D, Hh. reflexivity.
  - destruct c as [c|]; [|easy]. cbn [wf_chain_v] in Wc. cbn [enc_unsigned] in *.
    unfold dec_utx. cbn [N.leb]. change (128 <=? 1) with false. change (1 =? 1) with true. cbv iota.
    rewrite dec_eip2930_enc; auto; [rewrite Hh; reflexivity|]. rewrite len_cons in L. lia.
  - destruct c as [c|]; [|easy]. cbn [wf_chain_v] in Wc. cbn [enc_unsigned] in *.
    unfold dec_utx. change (128 <=? 2) with false. change (2 =? 1) with false.
    change (2 =? 2) with true. cbv iota.
    rewrite dec_eip1559_enc; auto; [rewrite Hh; reflexivity|]. rewrite len_cons in L. lia.
Qed.

End RoundTrip.
