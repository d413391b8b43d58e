(** Injectivity of the signing payload (C02), panic freedom (C03) and canonicity (C04). *)
From Verif Require Import Bytes BytesProofs Rlp RlpProofs TxModel TxSpec TxProofs.

(* ---------------- C02 ---------------- *)
Lemma enc_u64_inj a b : u64_ok a -> u64_ok b -> enc_uint a = enc_uint b -> a = b.
Proof. intros A B E. apply (f_equal (dec_uint 8)) in E. rewrite !dec_u64 in E by assumption. congruence. Qed.
Lemma enc_u256_inj a b : u256_ok a -> u256_ok b -> enc_uint a = enc_uint b -> a = b.
Proof. intros A B E. apply (f_equal (dec_uint 32)) in E. rewrite !dec_u256 in E by assumption. congruence. Qed.
Lemma enc_action_inj a b : wf_action a -> wf_action b -> enc_action a = enc_action b -> a = b.
Proof. intros A B E. apply (f_equal dec_action) in E. rewrite !dec_action_enc in E by assumption. congruence. Qed.
Lemma enc_str_inj a b :
  wf_bytes a -> wf_bytes b -> len a < 2^64 -> len b < 2^64 -> enc_str a = enc_str b -> a = b.
Proof. intros A B La Lb E. apply (f_equal dec_value) in E. rewrite !dec_value_str0 in E by assumption. congruence. Qed.
Lemma enc_access_inj a b :
  Forall wf_access_item a -> Forall wf_access_item b -> len (enc_access a) < 2^64 ->
  len (enc_access b) < 2^64 -> enc_access a = enc_access b -> a = b.
Proof. intros A B La Lb E. apply (f_equal dec_access) in E. rewrite !dec_access_enc in E by assumption. congruence. Qed.

Definition wf_chain (c : option N) : Prop := match c with Some i => u64_ok i | None => True end.

Lemma legacy_unsigned_items t c :
  wf_unsigned (Legacy t) -> wf_chain c -> len (enc_list (legacy_items t c None)) < 2^64 ->
  Forall is_item (legacy_items t c None) /\ len (concat (legacy_items t c None)) < 2^64 /\
  len (l_data t) < 2^64.
Proof.
  intros (Hn & Hp & Hg & Ha & Hv & Hd) Hc L.
  assert (len (concat (legacy_items t c None)) < 2^64) as LC
    by (eapply N.le_lt_trans; [apply enc_list_len|exact L]).
  assert (len (l_data t) < 2^64) as Ld.
  { eapply len_str_in; [|exact LC]. unfold legacy_items. apply in_or_app. left. in_tac. }
  repeat split; auto. unfold legacy_items. apply Forall_app. split.
  - item_tac. apply is_item_str; assumption.
  - destruct c as [c|]; [|constructor]. item_tac; apply item_u64; unfold u64_ok; lia.
Qed.

Lemma eip2930_unsigned_items t c :
  wf_unsigned (Eip2930 t) -> wf_chain c -> len (enc_list (eip2930_items t c None)) < 2^64 ->
  Forall is_item (eip2930_items t c None) /\ len (concat (eip2930_items t c None)) < 2^64 /\
  len (e_data t) < 2^64 /\ len (enc_access (e_access t)) < 2^64.
Proof.
  intros (Hn & Hp & Hg & Ha & Hv & Hd & Hl) Hc L.
  assert (len (concat (eip2930_items t c None)) < 2^64) as LC
    by (eapply N.le_lt_trans; [apply enc_list_len|exact L]).
  assert (len (e_data t) < 2^64) as Ld
    by (eapply len_str_in; [|exact LC]; unfold eip2930_items, eip1559_items; in_tac).
  assert (len (enc_access (e_access t)) < 2^64) as La
    by (eapply len_in; [|exact LC]; unfold eip2930_items, eip1559_items; in_tac).
  repeat split; auto. unfold eip2930_items. cbn [sig_items app]. item_tac.
  - destruct c; apply item_u64; [exact Hc|unfold u64_ok; cbn; lia].
  - apply is_item_str; assumption.
  - now apply item_access.
Qed.

Lemma eip1559_unsigned_items t c :
  wf_unsigned (Eip1559 t) -> wf_chain c -> len (enc_list (eip1559_items t c None)) < 2^64 ->
  Forall is_item (eip1559_items t c None) /\ len (concat (eip1559_items t c None)) < 2^64 /\
  len (f_data t) < 2^64 /\ len (enc_access (f_access t)) < 2^64.
Proof.
  intros (Hn & Hm & Hp & Hg & Ha & Hv & Hd & Hl) Hc L.
  assert (len (concat (eip1559_items t c None)) < 2^64) as LC
    by (eapply N.le_lt_trans; [apply enc_list_len|exact L]).
  assert (len (f_data t) < 2^64) as Ld
    by (eapply len_str_in; [|exact LC]; unfold eip2930_items, eip1559_items; in_tac).
  assert (len (enc_access (f_access t)) < 2^64) as La
    by (eapply len_in; [|exact LC]; unfold eip2930_items, eip1559_items; in_tac).
  repeat split; auto. unfold eip1559_items. cbn [sig_items app]. item_tac.
  - destruct c; apply item_u64; [exact Hc|unfold u64_ok; cbn; lia].
  - apply is_item_str; assumption.
  - now apply item_access.
Qed.

Lemma chain_or_0_inj a b :
  wf_chain a -> wf_chain b -> enc_uint (chain_or_0 a) = enc_uint (chain_or_0 b) ->
  chain_or_0 a = chain_or_0 b.
Proof.
  intros A B. apply enc_u64_inj; [destruct a|destruct b]; cbn in *; auto; unfold u64_ok; lia.
Qed.

(** Same payload: same transaction, and same chain id up to the typed [None]/[Some 0] confusion. *)
Lemma signing_payload_inj u1 c1 u2 c2 :
  wf_unsigned u1 -> wf_unsigned u2 -> wf_chain c1 -> wf_chain c2 ->
  len (signing_payload u1 c1) < 2^64 -> len (signing_payload u2 c2) < 2^64 ->
  signing_payload u1 c1 = signing_payload u2 c2 ->
  u1 = u2 /\ match u1 with Legacy _ => c1 = c2 | _ => chain_or_0 c1 = chain_or_0 c2 end.
Proof.
  unfold signing_payload. intros W1 W2 C1 C2 L1 L2 E.
  destruct u1 as [t1|t1|t1], u2 as [t2|t2|t2]; cbn [enc_unsigned] in *;
    try (exfalso;
         try destruct (enc_list_head (legacy_items t1 c1 None)) as (? & ? & Eh & Hh);
         try destruct (enc_list_head (legacy_items t2 c2 None)) as (? & ? & Eh & Hh);
         try rewrite Eh in E; inversion E; subst; lia).
  - destruct (legacy_unsigned_items t1 c1 W1 C1 L1) as (I1 & LC1 & D1).
    destruct (legacy_unsigned_items t2 c2 W2 C2 L2) as (I2 & LC2 & D2).
    pose proof (enc_list_inj _ _ I1 I2 LC1 LC2 E) as EI.
    destruct W1 as (n1 & p1 & g1 & a1 & v1 & d1), W2 as (n2 & p2 & g2 & a2 & v2 & d2).
    unfold legacy_items in EI. cbn [app] in EI. injection EI as E1 E2 E3 E4 E5 E6 E7.
    apply enc_u64_inj in E1; auto. apply enc_u64_inj in E2; auto. apply enc_u64_inj in E3; auto.
    apply enc_action_inj in E4; auto. apply enc_u256_inj in E5; auto. apply enc_str_inj in E6; auto.
    split; [destruct t1, t2; cbn in *; congruence|].
    destruct c1 as [c1|], c2 as [c2|]; try discriminate E7; auto.
    injection E7 as E7. apply enc_u64_inj in E7; auto. congruence.
  - injection E as E. rewrite len_cons in L1, L2.
    destruct (eip2930_unsigned_items t1 c1 W1 C1 ltac:(lia)) as (I1 & LC1 & D1 & A1).
    destruct (eip2930_unsigned_items t2 c2 W2 C2 ltac:(lia)) as (I2 & LC2 & D2 & A2).
    pose proof (enc_list_inj _ _ I1 I2 LC1 LC2 E) as EI.
    destruct W1 as (n1 & p1 & g1 & a1 & v1 & d1 & l1), W2 as (n2 & p2 & g2 & a2 & v2 & d2 & l2).
    unfold eip2930_items in EI. cbn [app sig_items] in EI. injection EI as E0 E1 E2 E3 E4 E5 E6 E7.
    apply chain_or_0_inj in E0; auto.
    apply enc_u64_inj in E1; auto. apply enc_u64_inj in E2; auto. apply enc_u64_inj in E3; auto.
    apply enc_action_inj in E4; auto. apply enc_u256_inj in E5; auto. apply enc_str_inj in E6; auto.
    apply enc_access_inj in E7; auto.
    split; [destruct t1, t2; cbn in *; congruence|exact E0].
  - injection E as E. rewrite len_cons in L1, L2.
    destruct (eip1559_unsigned_items t1 c1 W1 C1 ltac:(lia)) as (I1 & LC1 & D1 & A1).
    destruct (eip1559_unsigned_items t2 c2 W2 C2 ltac:(lia)) as (I2 & LC2 & D2 & A2).
    pose proof (enc_list_inj _ _ I1 I2 LC1 LC2 E) as EI.
    destruct W1 as (n1 & m1 & p1 & g1 & a1 & v1 & d1 & l1), W2 as (n2 & m2 & p2 & g2 & a2 & v2 & d2 & l2).
    unfold eip1559_items in EI. cbn [app sig_items] in EI. injection EI as E0 E1 EM E2 E3 E4 E5 E6 E7.
    apply chain_or_0_inj in E0; auto.
    apply enc_u64_inj in E1; auto. apply enc_u64_inj in EM; auto.
    apply enc_u64_inj in E2; auto. apply enc_u64_inj in E3; auto.
    apply enc_action_inj in E4; auto. apply enc_u256_inj in E5; auto. apply enc_str_inj in E6; auto.
    apply enc_access_inj in E7; auto.
    split; [destruct t1, t2; cbn in *; congruence|exact E0].
Qed.

(* ---------------- C03 ---------------- *)
Section Panic.
Variable keccak : bytes -> bytes.
Variable recover : bytes -> bytes -> option bytes.

Lemma dec_utx_panic_iff raw : dec_utx keccak raw = Panic <-> raw = [].
Proof.
  split; [|now intros ->]. destruct raw as [|x r]; [reflexivity|]. unfold dec_utx.
  destruct (128 <=? x); [destruct (dec_legacy keccak (x :: r)); discriminate|].
  destruct (x =? 1); [destruct (dec_eip2930 keccak r); discriminate|].
  destruct (x =? 2); [destruct (dec_eip1559 keccak r); discriminate|discriminate].
Qed.

(** The exact set of inputs on which decoding a signed transaction panics. *)
Lemma dec_stx_panic_iff b :
  dec_stx keccak recover b = Panic <->
  (data_ b = Some [] \/
   exists raw t s, data_ b = Some raw /\ dec_utx keccak raw = Ok t /\ u_sig t = Some s /\
                   sg_r s = [] /\ is_eth_sig s = false).
Proof.
  unfold dec_stx. split.
  - destruct (data_ b) as [raw|]; [|discriminate].
    destruct (dec_utx keccak raw) as [t| |] eqn:D; try discriminate.
    + destruct (u_sig t) as [s|] eqn:S; [|discriminate].
      unfold sender_of. destruct (is_eth_sig s) eqn:ES.
      * destruct (recover _ _); discriminate.
      * unfold interop_sender. destruct (sg_r s) as [|x r'] eqn:ER.
        -- intros _. right. exists raw, t, s. auto.
        -- destruct x as [|p]; [|discriminate].
           destruct (dec_cell_dep_with_pub_key r') as [[? ?]|]; discriminate.
    + intros _. left. apply dec_utx_panic_iff in D. now subst.
  - intros [H|(raw & t & s & H1 & H2 & H3 & H4 & H5)].
    + rewrite H. reflexivity.
    + rewrite H1, H2, H3. unfold sender_of. rewrite H5. unfold interop_sender. now rewrite H4.
Qed.
End Panic.

(* ---------------- C04 ---------------- *)
Lemma tree_item t : wf_tree t -> len (enc_tree t) < 2^64 -> is_item (enc_tree t).
Proof.
  destruct t as [b|l]; cbn [enc_tree]; intros W L.
  - apply is_item_str; [exact W|]. eapply N.le_lt_trans; [apply enc_str_len|exact L].
  - apply is_item_list. eapply N.le_lt_trans; [apply enc_list_len|exact L].
Qed.

Lemma wf_tree_node l : wf_tree (TNode l) <-> Forall wf_tree l.
Proof.
  cbn [wf_tree]. induction l as [|t l IH]; [split; auto|].
  rewrite IH. split; [intros [? ?]; now constructor|intros H; inversion H; auto].
Qed.

Definition good (t : tree) : Prop := wf_tree t /\ len (enc_tree t) < 2^64.

Lemma good_sub l : good (TNode l) -> Forall good l.
Proof.
  intros [W L]. rewrite wf_tree_node in W. rewrite Forall_forall in *. intros t Ht. split; auto.
  cbn [enc_tree] in L.
  eapply N.le_lt_trans; [apply concat_len_in, in_map, Ht|].
  eapply N.le_lt_trans; [apply enc_list_len|exact L].
Qed.
Lemma good_items l : good (TNode l) -> Forall is_item (map enc_tree l).
Proof.
  intros G. apply Forall_map. eapply Forall_impl; [|apply good_sub, G].
  intros t [W L]. now apply tree_item.
Qed.
Lemma good_len l : good (TNode l) -> len (concat (map enc_tree l)) < 2^64.
Proof. intros [_ L]. eapply N.le_lt_trans; [apply enc_list_len|exact L]. Qed.

Lemma good_view l : good (TNode l) -> view_items (enc_tree (TNode l)) = map enc_tree l.
Proof. intros G. cbn [enc_tree]. apply view_items_list; [now apply good_items|now apply good_len]. Qed.
Lemma good_inner l : good (TNode l) -> inner_items (enc_tree (TNode l)) = map enc_tree l.
Proof.
  intros G. cbn [enc_tree]. rewrite <- (app_nil_r (enc_list _)).
  apply inner_items_list; [now apply good_items|now apply good_len].
Qed.

Lemma enc_str_not_list b : wf_bytes b -> len b < 2^64 -> is_list (enc_str b) = false.
Proof.
  intros W L. destruct (enc_str_cases b) as [(x & -> & Hx & ->)|[-> _]]; cbn [is_list].
  - destruct (192 <=? x) eqn:E; lia.
  - unfold enc_header. destruct (len b <? 56) eqn:E; cbn [app is_list].
    + destruct (192 <=? 128 + len b) eqn:F; lia.
    + pose proof (nbytes_le_8 _ L). destruct (192 <=? _) eqn:F; lia.
Qed.

Lemma good_str_len b : good (TStr b) -> len b < 2^64.
Proof. intros [_ L]. eapply N.le_lt_trans; [apply enc_str_len|exact L]. Qed.

Lemma good_item_count t n :
  good t -> item_count (enc_tree t) = Some n -> exists l, t = TNode l /\ length l = n.
Proof.
  intros G H. destruct t as [b|l].
  - unfold item_count in H. cbn [enc_tree] in H.
    rewrite enc_str_not_list in H; [discriminate|apply G|now apply good_str_len].
  - exists l. split; [reflexivity|]. unfold item_count in H.
    rewrite good_view in H by assumption.
    destruct (is_list _); [|discriminate]. injection H as <-. now rewrite map_length.
Qed.

Lemma enc_list_dec_value_none items : dec_value (enc_list items) = None.
Proof.
  destruct (enc_list_head items) as (h & r & -> & H). cbn [dec_value].
  destruct (h <=? 127) eqn:E1; [lia|]. destruct (h <=? 183) eqn:E2; [lia|].
  destruct (h <=? 191) eqn:E3; [lia|]. reflexivity.
Qed.

Lemma good_dec_value t b : good t -> dec_value (enc_tree t) = Some b -> t = TStr b.
Proof.
  intros G H. destruct t as [x|l]; cbn [enc_tree] in H.
  - rewrite dec_value_str0 in H; [congruence|apply G|now apply good_str_len].
  - rewrite enc_list_dec_value_none in H. discriminate.
Qed.

Lemma good_dec_uint w t n :
  good t -> dec_uint w (enc_tree t) = Some n -> enc_tree t = enc_uint n /\ n < 256 ^ N.of_nat w.
Proof.
  intros G H. unfold dec_uint in H.
  destruct (dec_value (enc_tree t)) as [d|] eqn:E; [|discriminate].
  apply good_dec_value in E; [|exact G]. subst t. destruct G as [W _]. cbn [wf_tree] in W.
  assert ((length d <=? w)%nat = true /\ n = be_val d /\ match d with 0 :: _ => False | _ => True end)
    as (Hl & -> & Hz).
  { destruct d as [|[|p] d]; [| discriminate |];
      destruct (_ <=? w)%nat; try discriminate; injection H as <-; auto. }
  split.
  - cbn [enc_tree]. unfold enc_uint. f_equal. symmetry. apply be_min_of_val; [exact W|exact Hz].
  - eapply N.lt_le_trans; [apply be_val_bound, W|].
    apply N.pow_le_mono_r; [lia|]. apply Nat.leb_le in Hl. lia.
Qed.

Lemma good_dec_hash k t b :
  good t -> dec_hash k (enc_tree t) = Some b -> t = TStr b /\ length b = k.
Proof.
  intros G H. unfold dec_hash in H.
  destruct (dec_value (enc_tree t)) as [d|] eqn:E; [|discriminate].
  apply good_dec_value in E; [|exact G]. destruct (length d =? k)%nat eqn:L; [|discriminate].
  injection H as <-. split; [exact E|now apply Nat.eqb_eq].
Qed.

Lemma good_dec_action t a : good t -> dec_action (enc_tree t) = Some a -> enc_tree t = enc_action a.
Proof.
  intros G H. unfold dec_action in H.
  destruct (is_empty_item (enc_tree t)) eqn:E.
  - destruct (is_data (enc_tree t)) eqn:D; [|discriminate]. injection H as <-.
    destruct t as [b|l]; cbn [enc_tree enc_action] in *.
    + f_equal. destruct (enc_str_cases b) as [(x & -> & Hx & Eb)|[Eb _]]; rewrite Eb in E.
      * cbn in E. lia.
      * unfold enc_header in E. destruct (len b <? 56) eqn:F; cbn [app is_empty_item] in E.
        -- assert (len b = 0) as Z by lia. unfold len in Z. destruct b; [reflexivity|cbn in Z; lia].
        -- pose proof (nbytes_le_8 _ (good_str_len _ G)). exfalso.
           assert (nbytes (len b) > 0)%nat by (apply nbytes_pos; lia). lia.
    + unfold is_data in D. rewrite <- (app_nil_r (enc_list _)), is_list_enc_list in D. discriminate.
  - destruct (dec_hash 20 (enc_tree t)) as [b|] eqn:F; [|discriminate]. cbn [obind] in H.
    injection H as <-. apply good_dec_hash in F as [-> _]; [reflexivity|exact G].
Qed.

Lemma map_opt_inv {A B} (f : A -> option B) l r :
  map_opt f l = Some r -> Forall2 (fun x y => f x = Some y) l r.
Proof.
  revert r. induction l as [|x l IH]; cbn [map_opt]; intros r H.
  - injection H as <-. constructor.
  - destruct (f x) eqn:E; [|discriminate]. destruct (map_opt f l) eqn:F; [|discriminate].
    injection H as <-. constructor; auto.
Qed.

Lemma Forall2_map_inv (enc : tree -> bytes) {B} (f : bytes -> option B) (g : B -> bytes) l r :
  Forall2 (fun x y => f x = Some y) (map enc l) r ->
  (forall t y, In t l -> f (enc t) = Some y -> enc t = g y) ->
  map enc l = map g r.
Proof.
  revert r. induction l as [|t l IH]; cbn [map]; intros r H K; inversion H; subst; [reflexivity|].
  cbn [map]. f_equal; [apply K; [now left|assumption]|].
  apply IH; [assumption|]. intros t' y' Ht. apply K. now right.
Qed.

Lemma good_in l t : good (TNode l) -> In t l -> good t.
Proof. intros G H. apply good_sub in G. rewrite Forall_forall in G. auto. Qed.

Lemma good_dec_list {B} (f : bytes -> option B) (g : B -> bytes) l r :
  good (TNode l) -> dec_list f (enc_tree (TNode l)) = Some r ->
  (forall t y, In t l -> good t -> f (enc_tree t) = Some y -> enc_tree t = g y) ->
  enc_tree (TNode l) = enc_list (map g r).
Proof.
  intros G H K. unfold dec_list in H. rewrite good_view in H by assumption.
  apply map_opt_inv in H. cbn [enc_tree]. f_equal.
  eapply Forall2_map_inv; [exact H|]. intros t y Ht. apply K; [exact Ht|].
  eapply good_in; eauto.
Qed.

Lemma good_val_at {A} (f : bytes -> option A) l i x :
  good (TNode l) -> val_at f (enc_tree (TNode l)) i = Some x ->
  exists t, nth_error l i = Some t /\ good t /\ f (enc_tree t) = Some x.
Proof.
  intros G H. unfold val_at, at_ in H. rewrite good_view in H by assumption.
  rewrite nth_error_map in H. destruct (nth_error l i) as [t|] eqn:E; [|discriminate].
  exists t. repeat split; auto; eapply (good_in l); eauto using nth_error_In.
Qed.

Lemma good_dec_access_item t a :
  good t -> keys_are_list t -> dec_access_item (enc_tree t) = Some a -> enc_tree t = enc_access_item a.
Proof.
  intros G K H. unfold dec_access_item in H.
  destruct (item_count (enc_tree t)) as [n|] eqn:C; [|discriminate]. cbn [obind] in H.
  destruct (n =? 2)%nat eqn:N2; [|discriminate]. apply Nat.eqb_eq in N2. subst n.
  apply good_item_count in C as (l & -> & Hl); [|exact G].
  destruct l as [|t0 [|t1 [|]]]; try discriminate Hl. clear Hl.
  destruct (val_at (dec_hash 20) _ 0) as [ad|] eqn:V0; [|discriminate]. cbn [obind] in H.
  destruct (val_at (dec_list (dec_hash 32)) _ 1) as [ks|] eqn:V1; [|discriminate].
  cbn [obind] in H. injection H as <-.
  apply good_val_at in V0 as (x0 & E0 & G0 & D0); [|exact G]. injection E0 as <-.
  apply good_val_at in V1 as (x1 & E1 & G1 & D1); [|exact G]. injection E1 as <-.
  apply good_dec_hash in D0 as [-> _]; [|exact G0].
  cbn [keys_are_list] in K. destruct t1 as [|kl]; [easy|].
  unfold enc_access_item. cbn [ai_address ai_keys enc_tree map]. do 2 f_equal.
  - f_equal. change (enc_list (map enc_tree kl)) with (enc_tree (TNode kl)).
    apply (good_dec_list (dec_hash 32)); auto.
    intros t y Ht Gt Dt. apply good_dec_hash in Dt as [-> _]; [reflexivity|exact Gt].
Qed.

Lemma good_dec_access t al :
  good t -> match t with TNode es => Forall keys_are_list es | _ => True end ->
  dec_access (enc_tree t) = Some al -> enc_tree t = enc_access al.
Proof.
  intros G K H. unfold dec_access in H.
  destruct (item_count (enc_tree t)) as [n|] eqn:C; [|discriminate]. cbn [obind] in H.
  apply good_item_count in C as (l & -> & _); [|exact G].
  unfold enc_access. eapply good_dec_list; eauto.
  intros t y Ht Gt Dt. apply good_dec_access_item; auto. rewrite Forall_forall in K. auto.
Qed.

Lemma size_list items : size_ (enc_list items) = 0%nat.
Proof.
  unfold size_, is_data. rewrite <- (app_nil_r (enc_list items)), is_list_enc_list. reflexivity.
Qed.

(** What a decoded signature re-encodes to. *)
Lemma good_dec_rs l off r s v :
  good (TNode l) -> dec_rs (enc_tree (TNode l)) off = Some (r, s) ->
  exists tr ts, nth_error l (off + 1) = Some tr /\ nth_error l (off + 2) = Some ts /\
    enc_rs (SigC r s v) = [enc_tree tr; enc_tree ts].
Proof.
  intros G H. unfold dec_rs, at_, at_restart in H.
  rewrite good_view, good_inner, !nth_error_map in H by assumption.
  destruct (nth_error l (off + 1)) as [tr|] eqn:ER; [|discriminate].
  destruct (nth_error l (off + 2)) as [ts|] eqn:ES; [|discriminate].
  cbn [option_map obind] in H. exists tr, ts. repeat split; auto.
  assert (good tr) as Gr by (eapply good_in; eauto using nth_error_In).
  assert (good ts) as Gs by (eapply good_in; eauto using nth_error_In).
  assert (forall A (f : bytes -> option A), val_at f (enc_tree (TNode l)) (off + 2) = f (enc_tree ts)) as V.
  { intros A f. unfold val_at, at_. rewrite good_view, nth_error_map, ES by assumption. reflexivity. }
  rewrite !V in H.
  destruct (_ <=? 64)%nat eqn:SZ.
  - destruct (dec_uint 32 (enc_tree tr)) as [rn|] eqn:DR; [|discriminate].
    destruct (dec_uint 32 (enc_tree ts)) as [sn|] eqn:DS; [|discriminate].
    cbn [obind] in H. injection H as <- <-.
    apply good_dec_uint in DR as [-> BR]; [|exact Gr].
    apply good_dec_uint in DS as [-> BS]; [|exact Gs].
    unfold enc_rs, is_eth_sig, sig_len. cbn [sg_r sg_s].
    rewrite !be_fixed_length. cbn [Nat.add Nat.eqb].
    rewrite !truncate_32 by apply be_fixed_length.
    rewrite !be_val_fixed by assumption. reflexivity.
  - destruct (dec_value (enc_tree tr)) as [rb|] eqn:DR; [|discriminate].
    destruct (dec_value (enc_tree ts)) as [sb|] eqn:DS; [|discriminate].
    cbn [obind] in H. injection H as <- <-.
    apply good_dec_value in DR; [|exact Gr]. apply good_dec_value in DS; [|exact Gs]. subst tr ts.
    cbn [enc_tree] in *. apply Nat.leb_gt in SZ.
    rewrite <- (app_nil_r (enc_str rb)), <- (app_nil_r (enc_str sb)), !size_str in SZ
      by (apply Gr || apply Gs || (now apply good_str_len)).
    unfold enc_rs, is_eth_sig, sig_len. cbn [sg_r sg_s].
    rewrite (proj2 (Nat.eqb_neq _ _)) by lia. reflexivity.
Qed.

Lemma replay_inv v sv r s :
  extract_standard_v v = Some sv -> replay_v (SigC r s sv) (extract_chain_id v) = v.
Proof.
  unfold extract_standard_v, extract_chain_id, replay_v. cbn [sg_v]. intros H.
  destruct (v =? 27) eqn:E1; [injection H as <-; destruct (35 <=? v) eqn:E3; lia|].
  destruct (v =? 28) eqn:E2; [injection H as <-; destruct (35 <=? v) eqn:E3; lia|].
  destruct (35 <=? v) eqn:E3; [|discriminate]. injection H as <-. lia.
Qed.

Lemma strip_obind {A B} (o : option A) (f : A -> option B) y :
  obind o f = Some y -> exists x, o = Some x /\ f x = Some y.
Proof. destruct o as [x|]; [|discriminate]. intros H. now exists x. Qed.

Ltac step H x E := apply strip_obind in H as (x & E & H).

Section Canon.
Variable keccak : bytes -> bytes.

Ltac fin G E := let t := fresh "t" in let n := fresh "n" in let g := fresh "g" in let d := fresh "d" in
  apply good_val_at in E as (t & n & g & d); [|exact G]; cbn in n; injection n as <-.

Lemma canon_legacy t x :
  good t -> dec_legacy keccak (enc_tree t) = Some x ->
  enc_utx x = enc_tree t /\ u_hash x = keccak (enc_tree t).
Proof.
  intros G H. unfold dec_legacy in H. step H n C.
  destruct (n =? 9)%nat eqn:N9; [|discriminate]. apply Nat.eqb_eq in N9. subst n.
  apply good_item_count in C as (l & -> & Hl); [|exact G].
  do 10 (destruct l as [|? l]; try discriminate Hl). clear Hl.
  step H no E0. step H gp E1. step H gl E2. step H ac E3. step H va E4. step H da E5. step H v E6.
  step H sg E7. injection H as <-. split; [|reflexivity].
  unfold dec_sig_legacy in E7. step E7 sv EV. step E7 rs ER. destruct rs as [r s]. injection E7 as <-.
  fin G E0. fin G E1. fin G E2. fin G E3. fin G E4. fin G E5. fin G E6.
  apply (good_dec_rs _ _ _ _ sv) in ER as (tr & ts & n1 & n2 & ER); [|exact G].
  cbn in n1, n2. injection n1 as <-. injection n2 as <-.
  unfold enc_utx. cbn [u_unsigned u_chain u_sig enc_unsigned]. unfold legacy_items.
  cbn [l_nonce l_gas_price l_gas_limit l_action l_value l_data app].
  rewrite replay_inv, ER by exact EV. cbn [enc_tree map].
  repeat match goal with
         | D : dec_uint _ (enc_tree ?q) = Some _, g : good ?q |- _ =>
             apply good_dec_uint in D as [D _]; [|exact g]; rewrite D; clear D
         | D : dec_action (enc_tree ?q) = Some _, g : good ?q |- _ =>
             apply good_dec_action in D; [|exact g]; rewrite D; clear D
         | D : dec_value (enc_tree ?q) = Some _, g : good ?q |- _ =>
             apply good_dec_value in D; [|exact g]; subst q
         end.
  reflexivity.
Qed.

Lemma canon_2930 t x :
  good t -> access_strict 7 t -> dec_eip2930 keccak (enc_tree t) = Some x ->
  enc_utx x = 1 :: enc_tree t /\ u_hash x = keccak (1 :: enc_tree t).
Proof.
  intros G A H. unfold dec_eip2930 in H. step H n C.
  destruct (n =? 11)%nat eqn:N9; [|discriminate]. apply Nat.eqb_eq in N9. subst n.
  apply good_item_count in C as (l & -> & Hl); [|exact G].
  do 12 (destruct l as [|? l]; try discriminate Hl). clear Hl.
  step H cid EI. step H no E0. step H gp E1. step H gl E2. step H ac E3. step H va E4. step H da E5.
  step H al E6. step H sg E7. injection H as <-. split; [|reflexivity].
  unfold dec_sig_typed in E7. step E7 sv EV. step E7 rs ER. destruct rs as [r s]. injection E7 as <-.
  fin G EI. fin G E0. fin G E1. fin G E2. fin G E3. fin G E4. fin G E5. fin G E6. fin G EV.
  apply (good_dec_rs _ _ _ _ sv) in ER as (tr & ts & n1 & n2 & ER); [|exact G].
  cbn in n1, n2. injection n1 as <-. injection n2 as <-.
  unfold enc_utx. cbn [u_unsigned u_chain u_sig enc_unsigned]. unfold eip2930_items.
  cbn [e_nonce e_gas_price e_gas_limit e_action e_value e_data e_access app chain_or_0 sig_items].
  unfold enc_sig. rewrite ER. cbn [sg_v enc_tree map].
  cbn [access_strict nth_error] in A.
  repeat match goal with
         | D : dec_uint _ (enc_tree ?q) = Some _, g : good ?q |- _ =>
             apply good_dec_uint in D as [D _]; [|exact g]; rewrite D; clear D
         | D : dec_action (enc_tree ?q) = Some _, g : good ?q |- _ =>
             apply good_dec_action in D; [|exact g]; rewrite D; clear D
         | D : dec_access (enc_tree ?q) = Some _, g : good ?q |- _ =>
             apply good_dec_access in D; [|exact g|exact A]; rewrite D; clear D
         | D : dec_value (enc_tree ?q) = Some _, g : good ?q |- _ =>
             apply good_dec_value in D; [|exact g]; subst q
         end.
  reflexivity.
Qed.

Lemma canon_1559 t x :
  good t -> access_strict 8 t -> dec_eip1559 keccak (enc_tree t) = Some x ->
  enc_utx x = 2 :: enc_tree t /\ u_hash x = keccak (2 :: enc_tree t).
Proof.
  intros G A H. unfold dec_eip1559 in H. step H n C.
  destruct (n =? 12)%nat eqn:N9; [|discriminate]. apply Nat.eqb_eq in N9. subst n.
  apply good_item_count in C as (l & -> & Hl); [|exact G].
  do 13 (destruct l as [|? l]; try discriminate Hl). clear Hl.
  step H cid EI. step H no E0. step H mp EM. step H gp E1. step H gl E2. step H ac E3. step H va E4.
  step H da E5. step H al E6. step H sg E7. injection H as <-. split; [|reflexivity].
  unfold dec_sig_typed in E7. step E7 sv EV. step E7 rs ER. destruct rs as [r s]. injection E7 as <-.
  fin G EI. fin G E0. fin G EM. fin G E1. fin G E2. fin G E3. fin G E4. fin G E5. fin G E6. fin G EV.
  apply (good_dec_rs _ _ _ _ sv) in ER as (tr & ts & n1 & n2 & ER); [|exact G].
  cbn in n1, n2. injection n1 as <-. injection n2 as <-.
  unfold enc_utx. cbn [u_unsigned u_chain u_sig enc_unsigned]. unfold eip1559_items.
  cbn [f_nonce f_max_prio f_gas_price f_gas_limit f_action f_value f_data f_access app chain_or_0 sig_items].
  unfold enc_sig. rewrite ER. cbn [sg_v enc_tree map].
  cbn [access_strict nth_error] in A.
  repeat match goal with
         | D : dec_uint _ (enc_tree ?q) = Some _, g : good ?q |- _ =>
             apply good_dec_uint in D as [D _]; [|exact g]; rewrite D; clear D
         | D : dec_action (enc_tree ?q) = Some _, g : good ?q |- _ =>
             apply good_dec_action in D; [|exact g]; rewrite D; clear D
         | D : dec_access (enc_tree ?q) = Some _, g : good ?q |- _ =>
             apply good_dec_access in D; [|exact g|exact A]; rewrite D; clear D
         | D : dec_value (enc_tree ?q) = Some _, g : good ?q |- _ =>
             apply good_dec_value in D; [|exact g]; subst q
         end.
  reflexivity.
Qed.

Lemma canon raw x :
  strict_raw raw -> dec_utx keccak raw = Ok x -> enc_utx x = raw /\ u_hash x = keccak raw.
Proof.
  intros S H. destruct S as [t W L|t W L A|t W L A].
  - unfold dec_utx in H. destruct (enc_tree t) as [|h r] eqn:E; [discriminate|]. rewrite <- E in *.
    destruct (128 <=? h) eqn:Hh.
    + destruct (dec_legacy keccak (enc_tree t)) eqn:D; [|discriminate].
      cbn [of_option] in H. injection H as ->. apply canon_legacy; [split; auto|exact D].
    + (* a single strict byte below 0x80 is followed by nothing, so no typed decode succeeds *)
      assert (r = []) as ->.
      { destruct t as [b|l]; cbn [enc_tree] in E.
        - destruct (enc_str_cases b) as [(y & -> & Hy & Eb)|[Eb _]]; rewrite Eb in E; [congruence|].
          unfold enc_header in E. destruct (len b <? 56); cbn [app] in E; injection E as E _; lia.
        - destruct (enc_list_head (map enc_tree l)) as (y & q & Eq & Hy). rewrite Eq in E.
          injection E as E _. lia. }
      destruct (h =? 1); [discriminate|]. destruct (h =? 2); discriminate.
  - unfold dec_utx in H. change (128 <=? 1) with false in H. change (1 =? 1) with true in H.
    cbv iota in H. destruct (dec_eip2930 keccak (enc_tree t)) eqn:D; [|discriminate].
    cbn [of_option] in H. injection H as ->. apply canon_2930; [split; auto|exact A|exact D].
  - unfold dec_utx in H. change (128 <=? 2) with false in H. change (2 =? 1) with false in H.
    change (2 =? 2) with true in H.
    cbv iota in H. destruct (dec_eip1559 keccak (enc_tree t)) eqn:D; [|discriminate].
    cbn [of_option] in H. injection H as ->. apply canon_1559; [split; auto|exact A|exact D].
Qed.
End Canon.
