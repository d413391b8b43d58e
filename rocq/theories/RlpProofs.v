(** Round-trip lemmas for the RLP model. *)
From Verif Require Import Bytes BytesProofs Rlp.

(** An encoded item: a byte string that the reader consumes exactly, whatever follows. *)
Definition is_item (e : bytes) : Prop :=
  forall r, exists h v, payload_info (e ++ r) = Some (h, v) /\ (h + v = length e)%nat /\ e <> [].

Lemma nbytes_le_8 n : n < 2 ^ 64 -> (nbytes n <= 8)%nat.
Proof. intros. apply nbytes_le. change (256 ^ N.of_nat 8) with (2^64). exact H. Qed.

Lemma firstn_app_exact {A} (a b : list A) k : length a = k -> firstn k (a ++ b) = a.
Proof. intros <-. rewrite firstn_app, Nat.sub_diag, firstn_all. cbn. apply app_nil_r. Qed.

Lemma skipn_app_exact {A} (a b : list A) k : length a = k -> skipn k (a ++ b) = b.
Proof. intros <-. rewrite skipn_app, Nat.sub_diag, skipn_all. reflexivity. Qed.

Lemma long_len_be_min l r :
  56 <= l -> long_len (nbytes l) (be_min l ++ r) = Some l.
Proof.
  intros Hl. unfold long_len.
  destruct (be_min l) as [|x t] eqn:E.
  { apply be_min_nil in E. lia. }
  pose proof (be_min_hd l x t E) as Hx.
  cbn [app]. destruct (x =? 0) eqn:Ex; [lia|].
  pose proof (be_min_length l) as Len. rewrite E in Len.
  change (x :: t ++ r) with ((x :: t) ++ r).
  destruct (length ((x :: t) ++ r) <? nbytes l)%nat eqn:EL.
  { rewrite app_length in EL. apply Nat.ltb_lt in EL. lia. }
  rewrite firstn_app_exact by exact Len.
  rewrite <- E, be_val_min. destruct (l <=? 55) eqn:E55; [lia|reflexivity].
Qed.

(** Reading back a length header. *)
Lemma payload_hdr_header base l r :
  (base = 128 \/ base = 192) -> l < 2 ^ 64 -> 
  payload_hdr (enc_header base l ++ r) = Some (length (enc_header base l), l).
Proof.
  intros Hb Hl. unfold enc_header.
  destruct (l <? 56) eqn:E56.
  - cbn [app payload_hdr length].
    destruct (base + l <=? 127) eqn:E1; [lia|].
    destruct (base + l <=? 183) eqn:E2.
    + repeat f_equal. destruct Hb; subst; lia.
    + destruct (base + l <=? 191) eqn:E3; [lia|].
      destruct (base + l <=? 247) eqn:E4; [|lia].
      repeat f_equal. lia.
  - assert (56 <= l) as H56 by lia.
    pose proof (nbytes_le_8 l Hl). pose proof (nbytes_pos l ltac:(lia)).
    cbn [app payload_hdr length]. rewrite be_min_length.
    destruct (base + 55 + N.of_nat (nbytes l) <=? 127) eqn:E1; [lia|].
    destruct (base + 55 + N.of_nat (nbytes l) <=? 183) eqn:E2; [lia|].
    destruct (base + 55 + N.of_nat (nbytes l) <=? 191) eqn:E3.
    + replace (N.to_nat (base + 55 + N.of_nat (nbytes l) - 183)) with (nbytes l) by lia.
      rewrite long_len_be_min by assumption. reflexivity.
    + destruct (base + 55 + N.of_nat (nbytes l) <=? 247) eqn:E4; [lia|].
      replace (N.to_nat (base + 55 + N.of_nat (nbytes l) - 247)) with (nbytes l) by lia.
      rewrite long_len_be_min by assumption. reflexivity.
Qed.

Lemma enc_header_length_pos base l : (0 < length (enc_header base l))%nat.
Proof. unfold enc_header. destruct (l <? 56); cbn; lia. Qed.

Lemma payload_info_header base p r :
  (base = 128 \/ base = 192) -> len p < 2 ^ 64 ->
  payload_info (enc_header base (len p) ++ p ++ r) = Some (length (enc_header base (len p)), length p).
Proof.
  intros Hb Hl. unfold payload_info. rewrite payload_hdr_header by assumption.
  rewrite !len_app. unfold len at 2.
  destruct (_ <=? _) eqn:E.
  - repeat f_equal. unfold len. lia.
  - unfold len in *. lia.
Qed.

Lemma enc_str_cases b :
  (exists x, b = [x] /\ x < 128 /\ enc_str b = [x]) \/
  (enc_str b = enc_header 128 (len b) ++ b /\ (forall x, b = [x] -> 128 <= x)).
Proof.
  destruct b as [|x [|y r]]; cbn [enc_str].
  - right. split; auto. discriminate.
  - destruct (x <? 128) eqn:E.
    + left. exists x. repeat split; lia.
    + right. split; auto. intros ? [= ->]. lia.
  - right. split; auto. discriminate.
Qed.

Lemma payload_info_str b r :
  wf_bytes b -> len b < 2 ^ 64 ->
  exists h v, payload_info (enc_str b ++ r) = Some (h, v) /\ (h + v = length (enc_str b))%nat /\ v = length b.
Proof.
  intros W Hl. destruct (enc_str_cases b) as [(x & -> & Hx & ->)|[-> _]].
  - exists 0%nat, 1%nat. cbn [app]. unfold payload_info, payload_hdr.
    destruct (x <=? 127) eqn:E; [|lia]. rewrite len_cons.
    destruct (N.of_nat 0 + 1 <=? 1 + len r) eqn:E2; [|lia]. auto.
  - exists (length (enc_header 128 (len b))), (length b).
    rewrite <- app_assoc, payload_info_header, app_length by auto. auto.
Qed.

Lemma enc_str_nonnil b : enc_str b <> [].
Proof.
  destruct (enc_str_cases b) as [(x & -> & Hx & ->)|[-> _]]; [discriminate|].
  intros H. apply app_eq_nil in H. destruct H as [H _].
  pose proof (enc_header_length_pos 128 (len b)) as P. rewrite H in P. cbn in P. lia.
Qed.

Lemma enc_list_nonnil items : enc_list items <> [].
Proof.
  unfold enc_list. intros H. apply app_eq_nil in H. destruct H as [H _].
  pose proof (enc_header_length_pos 192 (len (concat items))) as P. rewrite H in P. cbn in P. lia.
Qed.

Lemma is_item_str b : wf_bytes b -> len b < 2 ^ 64 -> is_item (enc_str b).
Proof.
  intros W L r. destruct (payload_info_str b r W L) as (h & v & H & E & _).
  exists h, v. repeat split; auto. apply enc_str_nonnil.
Qed.

Lemma payload_info_list items r :
  len (concat items) < 2 ^ 64 ->
  payload_info (enc_list items ++ r) =
  Some (length (enc_header 192 (len (concat items))), length (concat items)).
Proof.
  intros L. unfold enc_list. rewrite <- app_assoc. apply payload_info_header; auto.
Qed.

Lemma enc_list_length items :
  length (enc_list items) = (length (enc_header 192 (len (concat items))) + length (concat items))%nat.
Proof. unfold enc_list. apply app_length. Qed.

Lemma is_item_list items : len (concat items) < 2 ^ 64 -> is_item (enc_list items).
Proof.
  intros L r. eexists _, _. split; [apply payload_info_list; exact L|].
  split; [symmetry; apply enc_list_length|apply enc_list_nonnil].
Qed.

Lemma next_item_app e r : is_item e -> next_item (e ++ r) = Some (e, r).
Proof.
  intros H. destruct (H r) as (h & v & P & E & _). unfold next_item. rewrite P.
  rewrite firstn_app_exact, skipn_app_exact by lia. reflexivity.
Qed.

Lemma payload_info_nil : payload_info [] = None.
Proof. reflexivity. Qed.

Lemma parse_items_nil f : parse_items f [] = [].
Proof. destruct f; reflexivity. Qed.

(** Parsing the concatenation of items, followed by something that is no item, gives the items. *)
Lemma parse_items_concat items r fuel :
  Forall is_item items -> (length items <= fuel)%nat ->
  parse_items fuel (concat items ++ r) = items ++ parse_items (fuel - length items) r.
Proof.
  intros H. revert fuel. induction H as [|e items He Hit IH]; intros fuel Hf.
  - cbn [concat app length]. now rewrite Nat.sub_0_r.
  - cbn [length] in Hf. destruct fuel as [|fuel]; [lia|].
    cbn [concat parse_items]. rewrite <- app_assoc, next_item_app by assumption.
    rewrite IH by lia. reflexivity.
Qed.

Lemma items_length_le items : Forall is_item items -> (length items <= length (concat items))%nat.
Proof.
  induction 1 as [|e items He Hit IH]; cbn [concat length]; [lia|].
  rewrite app_length. destruct (He []) as (_ & _ & _ & _ & Hn).
  destruct e; [congruence|]. cbn [length]. lia.
Qed.

Lemma parse_items_all items fuel :
  Forall is_item items -> (length items <= fuel)%nat -> parse_items fuel (concat items) = items.
Proof.
  intros H Hf. rewrite <- (app_nil_r (concat items)), parse_items_concat by assumption.
  now rewrite parse_items_nil, app_nil_r.
Qed.

Lemma is_list_enc_list items r : is_list (enc_list items ++ r) = true.
Proof.
  unfold enc_list, enc_header. destruct (_ <? 56) eqn:E; cbn [app is_list].
  - destruct (192 <=? 192 + len (concat items)) eqn:F; lia.
  - destruct (192 <=? _) eqn:F; lia.
Qed.

Lemma view_items_list items :
  Forall is_item items -> len (concat items) < 2 ^ 64 ->
  view_items (enc_list items) = items.
Proof.
  intros H L. unfold view_items.
  pose proof (is_list_enc_list items []) as IL. rewrite app_nil_r in IL. rewrite IL.
  pose proof (payload_info_list items [] L) as P. rewrite app_nil_r in P. rewrite P.
  unfold enc_list.
  rewrite skipn_app_exact, firstn_all by reflexivity.
  destruct items as [|e items].
  { reflexivity. }
  inversion H; subst.
  cbn [concat]. rewrite next_item_app by assumption.
  assert (forall k a (b c : bytes), length a = k -> skipn (k + length b) (a ++ b ++ c) = c) as SK.
  { intros k a b c <-. rewrite app_assoc. rewrite skipn_app_exact; auto. rewrite app_length. lia. }
  rewrite SK by reflexivity.
  rewrite parse_items_all; auto. now apply items_length_le.
Qed.

Lemma inner_items_list items r :
  Forall is_item items -> len (concat items) < 2 ^ 64 ->
  inner_items (enc_list items ++ r) = items.
Proof.
  intros H L. unfold inner_items. rewrite is_list_enc_list, payload_info_list by assumption.
  unfold enc_list. rewrite <- app_assoc, skipn_app_exact by reflexivity.
  rewrite firstn_app_exact by reflexivity.
  apply parse_items_all; auto. now apply items_length_le.
Qed.

Lemma item_count_list items :
  Forall is_item items -> len (concat items) < 2 ^ 64 ->
  item_count (enc_list items) = Some (length items).
Proof.
  intros H L. unfold item_count.
  pose proof (is_list_enc_list items []) as IL. rewrite app_nil_r in IL.
  rewrite IL, view_items_list by assumption. reflexivity.
Qed.

Lemma data_str b r : wf_bytes b -> len b < 2 ^ 64 -> data_ (enc_str b ++ r) = Some b.
Proof.
  intros W L. unfold data_.
  destruct (enc_str_cases b) as [(x & -> & Hx & ->)|[-> _]].
  - cbn [app]. unfold payload_info, payload_hdr.
    destruct (x <=? 127) eqn:E; [|lia]. rewrite len_cons.
    destruct (N.of_nat 0 + 1 <=? 1 + len r) eqn:E2; [|lia]. reflexivity.
  - rewrite <- app_assoc, payload_info_header by auto.
    rewrite skipn_app_exact, firstn_app_exact by reflexivity. reflexivity.
Qed.

Lemma dec_value_str b r : wf_bytes b -> len b < 2 ^ 64 -> dec_value (enc_str b ++ r) = Some b.
Proof.
  intros W L. destruct (enc_str_cases b) as [(x & -> & Hx & ->)|[-> Hs]].
  - cbn [app dec_value]. destruct (x <=? 127) eqn:E; [reflexivity|lia].
  - rewrite <- app_assoc. unfold enc_header. destruct (len b <? 56) eqn:E56.
    + cbn [app dec_value].
      destruct (128 + len b <=? 127) eqn:E1; [lia|].
      destruct (128 + len b <=? 183) eqn:E2; [|lia].
      replace (N.to_nat (128 + len b - 128)) with (length b) by (unfold len; lia).
      destruct (length (b ++ r) <? length b)%nat eqn:E3.
      { rewrite app_length in E3. apply Nat.ltb_lt in E3. lia. }
      rewrite firstn_app_exact by reflexivity.
      destruct b as [|x [|y b]]; auto.
      specialize (Hs x eq_refl). destruct (x <? 128) eqn:Ex; [lia|reflexivity].
    + pose proof (nbytes_le_8 (len b) L). pose proof (nbytes_pos (len b) ltac:(lia)).
      cbn [app dec_value].
      destruct (128 + 55 + N.of_nat (nbytes (len b)) <=? 127) eqn:E1; [lia|].
      destruct (128 + 55 + N.of_nat (nbytes (len b)) <=? 183) eqn:E2; [lia|].
      destruct (128 + 55 + N.of_nat (nbytes (len b)) <=? 191) eqn:E3; [|lia].
      replace (N.to_nat (128 + 55 + N.of_nat (nbytes (len b)) - 183)) with (nbytes (len b)) by lia.
      pose proof (be_min_length (len b)) as BL.
      destruct (length (be_min (len b) ++ b ++ r) <? nbytes (len b))%nat eqn:E4.
      { rewrite app_length in E4. apply Nat.ltb_lt in E4. lia. }
      destruct (be_min (len b) ++ b ++ r) as [|y t] eqn:EB.
      { apply app_eq_nil in EB. destruct EB as [EB _]. apply be_min_nil in EB. lia. }
      assert (y <> 0) as Hy.
      { destruct (be_min (len b)) as [|y' t'] eqn:EM.
        - apply be_min_nil in EM. lia.
        - cbn [app] in EB. injection EB as -> _. now apply be_min_hd in EM. }
      destruct y as [|py]; [congruence|].
      rewrite <- EB.
      rewrite firstn_app_exact, be_val_min by exact BL.
      rewrite skipn_app_exact by exact BL.
      assert (len (be_min (len b) ++ b ++ r) <? N.of_nat (nbytes (len b)) + len b = false) as ->.
      { rewrite !len_app. unfold len at 1. rewrite BL. lia. }
      unfold len at 1. rewrite Nnat.Nat2N.id.
      now rewrite firstn_app_exact.
Qed.

Lemma dec_value_str0 b : wf_bytes b -> len b < 2 ^ 64 -> dec_value (enc_str b) = Some b.
Proof. intros. rewrite <- (app_nil_r (enc_str b)). now apply dec_value_str. Qed.

Lemma len_be_min n k : n < 256 ^ N.of_nat k -> (k <= 32)%nat -> len (be_min n) < 2 ^ 64.
Proof.
  intros H K. unfold len. rewrite be_min_length. apply nbytes_le in H.
  assert (N.of_nat (nbytes n) <= 32) by lia. lia.
Qed.

Lemma is_item_uint n w : n < 256 ^ N.of_nat w -> (w <= 32)%nat -> is_item (enc_uint n).
Proof. intros. apply is_item_str; [apply be_min_wf|eauto using len_be_min]. Qed.

Lemma dec_uint_enc w n : n < 256 ^ N.of_nat w -> (w <= 32)%nat -> dec_uint w (enc_uint n) = Some n.
Proof.
  intros H W. unfold dec_uint, enc_uint.
  rewrite dec_value_str0 by eauto using be_min_wf, len_be_min.
  assert ((length (be_min n) <=? w)%nat = true) as HL
    by (apply Nat.leb_le; rewrite be_min_length; now apply nbytes_le).
  destruct (be_min n) as [|x t] eqn:E.
  - cbn [length] in *. rewrite HL, <- E, be_val_min. reflexivity.
  - pose proof (be_min_hd n x t E). destruct x as [|p]; [congruence|].
    now rewrite HL, <- E, be_val_min.
Qed.

Lemma dec_hash_enc k h : wf_bytes h -> length h = k -> N.of_nat k < 2 ^ 64 -> dec_hash k (enc_hash h) = Some h.
Proof.
  intros W L K. unfold dec_hash, enc_hash. rewrite dec_value_str0; auto.
  - now rewrite L, Nat.eqb_refl.
  - unfold len. now rewrite L.
Qed.

Lemma is_item_hash h : wf_bytes h -> len h < 2 ^ 64 -> is_item (enc_hash h).
Proof. apply is_item_str. Qed.

Lemma dec_bool_enc b : dec_bool (enc_bool b) = Some b.
Proof. destruct b; reflexivity. Qed.

Lemma is_item_bool b : is_item (enc_bool b).
Proof. destruct b; apply (is_item_uint _ 1); cbn; lia. Qed.

Lemma map_opt_map {A B C} (f : B -> option C) (g : A -> B) (h : A -> C) l :
  (forall x, In x l -> f (g x) = Some (h x)) -> map_opt f (map g l) = Some (map h l).
Proof.
  induction l as [|x l IH]; cbn [map map_opt]; intros H; auto.
  rewrite H by now left. rewrite IH; auto. intros y Hy. apply H. now right.
Qed.

Lemma dec_list_enc {A} (enc : A -> bytes) (dec : bytes -> option A) l :
  (forall x, In x l -> is_item (enc x) /\ dec (enc x) = Some x) ->
  len (concat (map enc l)) < 2 ^ 64 ->
  dec_list dec (enc_list (map enc l)) = Some l.
Proof.
  intros H L. unfold dec_list. rewrite view_items_list; auto.
  - rewrite (map_opt_map dec enc (fun x => x)), map_id; auto. intros x Hx. now apply H.
  - rewrite Forall_map, Forall_forall. intros x Hx. now apply H.
Qed.

Lemma dec_option_enc {A} (enc : A -> bytes) (dec : bytes -> option A) o :
  (forall x, o = Some x -> is_item (enc x) /\ dec (enc x) = Some x /\ len (enc x) < 2 ^ 64) ->
  dec_option dec (enc_option (option_map enc o)) = Some o.
Proof.
  intros H. destruct o as [x|]; cbn [option_map enc_option].
  - destruct (H x eq_refl) as (I & D & L). unfold dec_option.
    assert (Forall is_item [enc x]) as F by now constructor.
    assert (len (concat [enc x]) < 2 ^ 64) as LC by (cbn [concat]; now rewrite app_nil_r).
    rewrite item_count_list by auto. cbn [length]. unfold at_restart.
    rewrite <- (app_nil_r (enc_list [enc x])), inner_items_list by auto. cbn [nth_error].
    now rewrite D.
  - reflexivity.
Qed.

Lemma is_item_option o : (forall x, o = Some x -> len x < 2 ^ 64) -> is_item (enc_option o).
Proof.
  intros H. destruct o as [x|]; cbn [enc_option]; apply is_item_list.
  - cbn [concat]. rewrite app_nil_r. now apply H.
  - cbn [concat]; rewrite len_nil; lia.
Qed.

Lemma size_str b r : wf_bytes b -> len b < 2 ^ 64 -> size_ (enc_str b ++ r) = length b.
Proof.
  intros W L. unfold size_.
  assert (is_list (enc_str b ++ r) = false) as E.
  { destruct (enc_str_cases b) as [(x & -> & Hx & ->)|[-> _]].
    - cbn [app is_list]. lia.
    - unfold enc_header. destruct (len b <? 56) eqn:E56; cbn [app is_list]; [lia|].
      pose proof (nbytes_le_8 (len b) L). lia. }
  unfold is_data. rewrite E. cbn [negb].
  destruct (payload_info_str b r W L) as (h & v & -> & _ & ->). reflexivity.
Qed.

Lemma concat_len_in (x : bytes) (l : list bytes) : In x l -> len x <= len (concat l).
Proof.
  induction l as [|y l IH]; [easy|]. intros [->|H]; cbn [concat]; rewrite len_app; [lia|].
  specialize (IH H). lia.
Qed.

Lemma enc_list_len items : len (concat items) <= len (enc_list items).
Proof. unfold enc_list. rewrite len_app. lia. Qed.

Lemma enc_str_len b : len b <= len (enc_str b).
Proof.
  destruct (enc_str_cases b) as [(x & -> & Hx & ->)|[-> _]]; [lia|]. rewrite len_app. lia.
Qed.
